(** Model of pddl/helpers/cache_hash.py.

    An instance of a decorated class is a class name together with a reference to its
    [__dict__].  A [__dict__] holds the instance attributes: plain data, references to other
    instances, and possibly the attribute "__hash".  [__dict__]s are shared by shallow copies.
    Not modelled: classes that define their own __getstate__ / __setstate__ (none in /repo). *)
From Coq Require Import String List Bool ZArith.
From Verif Require Import Py.
Import ListNotations.
Open Scope list_scope.

(** a [__dict__]: the attributes, and the entry "__hash" if present *)
Record cell : Type := mkCell { ce_data : Z; ce_kids : list nat; ce_hash : option Z }.

(** one Python process: its hash seed, the [__dict__]s and the instances
    (class, which [__dict__]) *)
Record proc : Type := mkProc { pr_seed : Z; pr_cells : list cell; pr_objs : list (string * nat) }.

(** assignment to an entry of the heap (Python runtime) *)
Fixpoint update {A} (l : list A) (n : nat) (x : A) : list A :=
  match l, n with
  | [], _ => []
  | _ :: r, O => x :: r
  | y :: r, S n' => y :: update r n' x
  end.

(** following a reference (Python runtime) *)
Definition lookup (p : proc) (i : nat) : option (string * nat * cell) :=
  match nth_error (pr_objs p) i with
  | Some (cls, a) => match nth_error (pr_cells p) a with
                     | Some c => Some (cls, a, c)
                     | None => None
                     end
  | None => None
  end.

(** cache_hash.py:33-35, 60, 92-93: writing or deleting the entry "__hash" *)
Definition set_hash (p : proc) (a : nat) (h : option Z) : proc :=
  match nth_error (pr_cells p) a with
  | Some c => mkProc (pr_seed p) (update (pr_cells p) a (mkCell (ce_data c) (ce_kids c) h))
                     (pr_objs p)
  | None => p
  end.

Section Thread.
  Context {A B : Type} (f : proc -> A -> proc * B).
  (** evaluating [f] on the elements from left to right, as cache_hash.py:19-37 does through the tuple hashed *)
  Fixpoint thread (p : proc) (l : list A) : proc * list B :=
    match l with
    | [] => (p, [])
    | x :: xs => let '(p1, y) := f p x in let '(p2, ys) := thread p1 xs in (p2, y :: ys)
    end.
End Thread.

Section CacheHash.
  (** the undecorated [__hash__] of each class, given the seed, the instance's data and the
      results of hash() on the instances it refers to *)
  Variable fn : Z -> string -> Z -> list Z -> Z.

  (** cache_hash.py:19-37 _cache_hash: hash(o).  The recursion is over object references, which
      always point to older objects; [fuel] bounds its depth. *)
  Fixpoint hash_obj (fuel : nat) (p : proc) (i : nat) : proc * Z :=
    match fuel with
    | O => (p, 0%Z)
    | S fuel' =>
        match lookup p i with
        | None => (p, 0%Z)
        | Some (cls, a, c) =>
            match ce_hash c with
            | Some h => (p, h)
            | None =>
                let '(p', hs) := thread (hash_obj fuel') p (ce_kids c) in
                let h := fn (pr_seed p') cls (ce_data c) hs in
                (set_hash p' a (Some h), h)
            end
        end
    end.
  (** cache_hash.py:19-37: [hash(o)] *)
  Definition do_hash (p : proc) (i : nat) : proc * Z := hash_obj (S i) p i.
End CacheHash.

(** cache_hash.py:40-63 _getstate over :66-68 default_getstate: the live [__dict__], from which
    "__hash" is popped *)
Definition getstate (p : proc) (i : nat) : proc :=
  match lookup p i with
  | None => p
  | Some (_, a, _) => set_hash p a None
  end.

(** cache_hash.py:76-95 _setstate over :71-73 default_setstate, on a new instance of [cls]:
    its [__dict__] becomes the given one; "__hash" is deleted if present *)
Definition setstate (p : proc) (cls : string) (a : nat) : proc :=
  set_hash (mkProc (pr_seed p) (pr_cells p) (pr_objs p ++ [(cls, a)])) a None.

(** copy.copy(o): __reduce_ex__ calls __getstate__, the new instance gets the very same
    [__dict__] through __setstate__ *)
Definition do_copy (p : proc) (i : nat) : proc :=
  match lookup p i with
  | None => p
  | Some (cls, a, _) => setstate (getstate p i) cls a
  end.

(** constructing an instance *)
Definition do_new (p : proc) (cls : string) (data : Z) (kids : list nat) : proc :=
  if forallb (fun k => Nat.ltb k (length (pr_objs p))) kids then
    mkProc (pr_seed p) (pr_cells p ++ [mkCell data kids None])
           (pr_objs p ++ [(cls, length (pr_cells p))])
  else p.

(** what pickle writes for an instance: class and the contents of the dict returned by
    __getstate__ *)
Inductive pickled : Type := Pickled (cls : string) (data : Z) (h : option Z) (kids : list pickled).

(** pickle.dumps(o) (and the first half of copy.deepcopy(o)): __getstate__ is called on every
    instance reached, and the dict it returned is written *)
Fixpoint dump_obj (fuel : nat) (p : proc) (i : nat) : proc * pickled :=
  match fuel with
  | O => (p, Pickled "" 0 None [])
  | S fuel' =>
      let p1 := getstate p i in
      match lookup p1 i with
      | None => (p1, Pickled "" 0 None [])
      | Some (cls, _, c) =>
          let '(p2, ks) := thread (dump_obj fuel') p1 (ce_kids c) in
          (p2, Pickled cls (ce_data c) (ce_hash c) ks)
      end
  end.
(** [pickle.dumps(o)]: cache_hash.py:40-63 on every instance reached *)
Definition do_dump (p : proc) (i : nat) : proc * pickled := dump_obj (S i) p i.

(** pickle.loads: the instances referred to are rebuilt first; then a dict with everything that
    was written is passed to __setstate__.  Returns the new instance. *)
Fixpoint do_load (p : proc) (t : pickled) : proc * nat :=
  match t with
  | Pickled cls data h kids =>
      let '(p1, ks) := (fix go (p : proc) (l : list pickled) : proc * list nat :=
        match l with
        | [] => (p, [])
        | x :: xs => let '(p1, k) := do_load p x in let '(p2, ks) := go p1 xs in (p2, k :: ks)
        end) p kids in
      let a := length (pr_cells p1) in
      let p2 := mkProc (pr_seed p1) (pr_cells p1 ++ [mkCell data ks h]) (pr_objs p1) in
      (setstate p2 cls a, length (pr_objs p1))
  end.

(** ** Histories: a process, and files written by pickle that outlive it *)
Inductive op : Type :=
| New (cls : string) (data : Z) (kids : list nat)
| Hash (i : nat)
| GetState (i : nat)
| Copy (i : nat)
| Dump (i : nat)      (* pickle.dumps to a new file *)
| Unpickle (k : nat)      (* pickle.loads of the k-th file *)
| NewInterp (seed : Z). (* a new interpreter; the files are kept *)

(** the state a user can observe *)
Record world : Type := mkWorld { wo_proc : proc; wo_files : list pickled }.
(** a new interpreter *)
Definition init_world (seed : Z) : world := mkWorld (mkProc seed [] []) [].

(** one operation of a history *)
Definition step (fn : Z -> string -> Z -> list Z -> Z) (w : world) (o : op) : world :=
  let p := wo_proc w in
  match o with
  | New cls data kids => mkWorld (do_new p cls data kids) (wo_files w)
  | Hash i => mkWorld (fst (do_hash fn p i)) (wo_files w)
  | GetState i => mkWorld (getstate p i) (wo_files w)
  | Copy i => mkWorld (do_copy p i) (wo_files w)
  | Dump i => let '(p', t) := do_dump p i in mkWorld p' (wo_files w ++ [t])
  | Unpickle k => match nth_error (wo_files w) k with
              | Some t => mkWorld (fst (do_load p t)) (wo_files w)
              | None => w
              end
  | NewInterp s => mkWorld (mkProc s [] []) (wo_files w)
  end.
(** a history *)
Definition run fn (w : world) (h : list op) : world := fold_left (step fn) h w.

(** ** What the property compares with: the undecorated hash, computed from the attributes of
    the instance without looking at any "__hash" entry *)
Fixpoint plain_hash (fn : Z -> string -> Z -> list Z -> Z) (fuel : nat) (p : proc) (i : nat) : Z :=
  match fuel with
  | O => 0%Z
  | S fuel' =>
      match lookup p i with
      | None => 0%Z
      | Some (cls, _, c) =>
          fn (pr_seed p) cls (ce_data c) (map (plain_hash fn fuel' p) (ce_kids c))
      end
  end.
(** the [__hash__] the class defines, without cache_hash.py *)
Definition undecorated_hash fn (p : proc) (i : nat) : Z := plain_hash fn (S i) p i.
