(** Specification for C70: consistent renaming of the names a user chooses.  Nothing here models
    code. *)
From Coq Require Import String Ascii List Bool.
From Verif Require Import Py Names Logic Validation Core.
Import ListNotations.
Open Scope string_scope.
Open Scope list_scope.

(** A renaming gives different names to different names and a name to each name.  The words with a
    meaning in PDDL (the keywords, [object], [number], [total-cost]) and what is not a name stay. *)
Record renaming (r : string -> string) : Prop := mkRenaming {
  rn_inj : forall a b, r a = r b -> a = b;
  rn_name : forall a, name_regex a = true -> name_regex (r a) = true;
  rn_other : forall a, name_regex a = false -> r a = a;
  rn_words : forall a, In a ("number" :: all_symbols) -> r a = a
}.
(** two names differ only by upper and lower case exactly when their new names do *)
Definition respects_case (r : string -> string) (a b : string) : Prop :=
  lower (r a) = lower (r b) <-> lower a = lower b.

(** exchanging two names *)
Definition swap (x y a : string) : string :=
  if String.eqb a x then y else if String.eqb a y then x else a.

(** the outcome of a call, with the value renamed *)
Definition rmap {A B} (f : A -> B) (x : res A) : res B :=
  match x with Ok a => Ok (f a) | Err e => Err e end.

Section Rename.
  Variable r : string -> string.

  (** ** texts: every word outside comments, except those after a colon, is replaced *)
  Inductive mode : Type := Plain | InWord (w : string) | InKeyword | InComment.
  Definition char_is (n : nat) (c : ascii) : bool := Ascii.eqb c (ascii_of_nat n).
  Definition start_mode (c : ascii) : mode * string :=
    if char_is 59 c then (InComment, str1 c)
    else if char_is 58 c then (InKeyword, str1 c)
    else if is_alpha c then (InWord (str1 c), "")
    else (Plain, str1 c).
  Definition mode_step (m : mode) (c : ascii) : mode * string :=
    match m with
    | Plain => start_mode c
    | InWord w => if is_name_char c then (InWord (w +++ str1 c), "")
                  else let '(m', out) := start_mode c in (m', r w +++ out)
    | InKeyword => if is_name_char c then (InKeyword, str1 c) else start_mode c
    | InComment => (if char_is 10 c then Plain else InComment, str1 c)
    end.
  Fixpoint rename_from (m : mode) (s : string) : string :=
    match s with
    | "" => match m with InWord w => r w | _ => "" end
    | String c s' => let '(m', out) := mode_step m c in out +++ rename_from m' s'
    end.
  Definition rename_text (s : string) : string := rename_from Plain s.

  (** ** objects *)
  Definition ren_coll (c : coll string) : coll string :=
    match c with CNone => CNone | CList l => CList (map r l) | CSet l => CSet (map r l) end.
  Definition ren_var (v : var) : var := mkVar (r (v_name v)) (map r (v_tags v)).
  Definition ren_term (t : term) : term :=
    match t with TConst n g => TConst (r n) (option_map r g) | TVar v => TVar (ren_var v) end.
  Fixpoint ren_form (f : form) : form :=
    match f with
    | FPred n ts => FPred (r n) (map ren_term ts)
    | FEq l r' => FEq (ren_term l) (ren_term r')
    | FNumFun n ts => FNumFun (r n) (map ren_term ts)
    | FNumVal v => FNumVal v
    | FBinFun k ops => FBinFun k (map ren_form ops)
    | FBin k ops => FBin k (map ren_form ops)
    | FNot g => FNot (ren_form g)
    | FQuant q vs c => FQuant q (map ren_var vs) (ren_form c)
    | FWhen c e => FWhen (ren_form c) (ren_form e)
    | FForall vs e => FForall (map ren_var vs) (ren_form e)
    end.
  Definition ren_action (a : action) : action :=
    mkAction (r (a_name a)) (map ren_term (a_params a)) (option_map ren_form (a_pre a)) (option_map ren_form (a_eff a)).
  Definition ren_derived (d : derived) : derived :=
    mkDerived (r (dp_name d)) (map ren_term (dp_terms d)) (ren_form (dp_cond d)).
  Definition ren_metric (m : metric) : metric := mkMetric (ren_form (me_expr m)) (me_opt m).
  Definition ren_const (c : const) : const := (r (fst c), option_map r (snd c)).
  Definition ren_atom (a : atom) : atom := (r (fst a), map ren_term (snd a)).
  Definition ren_types (d : types_dict) : types_dict := map (fun kv => (r (fst kv), option_map r (snd kv))) d.
  Definition ren_functions (d : functions_dict) : functions_dict :=
    map (fun kv => (ren_atom (fst kv), option_map r (snd kv))) d.
  Definition ren_domain (d : domain) : domain :=
    mkDomain (r (d_name d)) (d_reqs d) (ren_types (d_types d)) (map ren_const (d_constants d))
      (map ren_atom (d_predicates d)) (map ren_derived (d_derived d)) (ren_functions (d_functions d))
      (map ren_action (d_actions d)).
  Definition ren_problem (p : problem) : problem :=
    mkProblem (r (p_name p)) (option_map ren_domain (p_domain p)) (r (p_domain_name p)) (p_reqs p)
      (map ren_const (p_objects p)) (map ren_form (p_init p)) (ren_form (p_goal p)) (option_map ren_metric (p_metric p)).
  Definition ren_plan (pl : plan) : plan := map (fun st => (r (fst st), map ren_const (snd st))) pl.
End Rename.
