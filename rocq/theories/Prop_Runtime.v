(** C04 (memoised hashes) and C39 (sys.tracebacklimit). *)
From Coq Require Import String List ZArith.
From Verif Require Import Py CacheHash CacheHash_facts Traceback.
Import ListNotations.
Open Scope string_scope.
Open Scope list_scope.

(** ** C04: after any history of constructions, hash() calls, __getstate__ calls, shallow
    copies, pickling to files, unpickling (in the same or in a later process) and restarts with
    other seeds, hash(o) is what the undecorated __hash__ computes from the instance's
    attributes in the current process.  [fn] is the undecorated __hash__ of every class. *)
Theorem C04_hash_is_current :
  forall (fn : Z -> string -> Z -> list Z -> Z) (seed : Z) (history : list op) (i : nat),
    let p := wo_proc (run fn (init_world seed) history) in
    snd (do_hash fn p i) = undecorated_hash fn p i.
Proof. exact hash_never_stale. Qed.
Print Assumptions C04_hash_is_current.

(** hash() changes nothing but "__hash" entries, so asking for it is unobservable otherwise *)
Theorem C04_hashing_changes_no_attribute :
  forall (fn : Z -> string -> Z -> list Z -> Z) (seed : Z) (history : list op) (i j : nat),
    let p := wo_proc (run fn (init_world seed) history) in
    undecorated_hash fn (fst (do_hash fn p i)) j = undecorated_hash fn p j.
Proof.
  intros fn seed h i j p.
  assert (I : Inv fn p) by (apply run_inv, empty_inv).
  destruct (hash_obj_ok fn (S i) p i I (le_n _)) as (S0 & _ & _).
  symmetry. apply undec_same. exact S0.
Qed.
Print Assumptions C04_hashing_changes_no_attribute.

(** a history in which a cached value, a shared dict, a pickle written after hashing and a
    change of seed all occur; the hash changes with the seed, so a kept cache would be wrong *)
Definition demo_fn (seed : Z) (cls : string) (data : Z) (hs : list Z) : Z :=
  (seed * 1000 + data + fold_right Z.add 0 hs)%Z.
Definition demo_history : list op :=
  [New "Constant" 1 []; New "Predicate" 2 [0]; Hash 1; Copy 1; Hash 2; Dump 1; Hash 1; Dump 2;
   NewInterp 7; Unpickle 0; Unpickle 1; Hash 1; Copy 1].
Example demo_hash :
  let p := wo_proc (run demo_fn (init_world 3) demo_history) in
  snd (do_hash demo_fn p 1) = 14003%Z /\ length (pr_objs p) = 5 /\
  snd (do_hash demo_fn (wo_proc (run demo_fn (init_world 3) (firstn 8 demo_history))) 1) = 6003%Z.
Proof. vm_compute. repeat split. Qed.

(** ** C39 *)
(** False: with the attribute unset, as in a fresh interpreter, one call changes it — to None
    when the parse succeeds and to 0 (tracebacks suppressed) when it raises. *)
Theorem C39_refuted :
  ~ (forall (before : limit) (h : list outcome), calls before h = before).
Proof. intros H. discriminate (H Unset [Raises]). Qed.
Print Assumptions C39_refuted.

(** What does hold: a numeric value survives every history; and with no numeric value set
    the attribute after a history is decided by the first failing call if there is one. *)
Theorem C39_partial :
  forall (z : Z) (h : list outcome), calls (LInt z) h = LInt z.
Proof. intros z h. induction h as [|o h IH]; [reflexivity|exact IH]. Qed.
Print Assumptions C39_partial.

Theorem C39_after_failure :
  forall (before : limit) (h : list outcome), getattr_limit before = None ->
    (calls before h = LInt 0 <-> In Raises h).
Proof.
  intros before h. revert before. induction h as [|o h IH]; intros before E; simpl.
  - split; [intros ->; discriminate E|intros []].
  - unfold call_parser at 1. rewrite E. destruct o.
    + fold (calls LNone h). rewrite (IH LNone eq_refl). split.
      * intros I; right; exact I.
      * intros [X|I]; [discriminate|exact I].
    + split; [left; reflexivity|]. intros _.
      fold (calls (LInt 0) h). apply C39_partial.
Qed.
Print Assumptions C39_after_failure.

Example limit_witness :
  calls Unset [Returns; Raises; Returns] = LInt 0 /\ calls (LInt 10) [Raises; Returns] = LInt 10.
Proof. split; reflexivity. Qed.
