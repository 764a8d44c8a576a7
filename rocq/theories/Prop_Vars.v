(** C43: printed lists of typed variables. *)
From Coq Require Import String List Bool Arith Lia.
From Verif Require Import Py Names Logic Validation Core Lexer Show Parser Spec_Parse Spec_Print.
From Verif Require Import Py_facts Names_facts Vars_facts.
Import ListNotations.
Open Scope string_scope.
Open Scope list_scope.

(** The variables the theorems quantify over are exactly those that can be made. *)
Theorem C43_variables : forall v, legal_var v <-> exists n c, mk_var n c = Ok v.
Proof.
  intros v. split.
  - intros (L & T & N). exists (v_name v), (CSet (v_tags v)). apply mk_var_Ok. cbn [coll_items coll_ok].
    rewrite dedup_string_id by auto. destruct v. auto.
  - intros (n & c & H). apply mk_var_Ok in H as (-> & L & _ & T). cbn. repeat split; cbn; try apply L.
    + apply Forall_forall. intros x Hx. rewrite Forall_forall in T. apply T. now apply dedup_string_In.
    + apply dedup_string_NoDup.
Qed.

(** Parameters of an action and of a conditional effect (helpers/base.py _typed_parameters): they
    come back exactly when no variable has several types, no untyped variable precedes a typed
    one, and a variable written twice has the same types. *)
Theorem C43_parameters_partial : forall vs, Forall legal_var vs ->
  ((exists ws, variables_in (typed_parameters (map TVar vs)) = Ok ws /\ Forall2 same_var ws vs) <->
   Forall one_type vs /\ untyped_last vs /\ repeats_same vs).
Proof. intros vs L. rewrite (variables_in_rx _ _ (rx_params vs L)). now apply back_plain. Qed.

(** Variables of a quantifier (logic/base.py QuantifiedCondition.__str__). *)
Theorem C43_quantifier_partial : forall vs, Forall legal_var vs ->
  ((exists ws, variables_in (join " " (map show_qvar vs)) = Ok ws /\ Forall2 same_var ws vs) <->
   Forall one_type vs /\ untyped_last vs /\ repeats_same vs).
Proof. intros vs L. rewrite (variables_in_rx _ _ (rx_qvars vs L)). now apply back_plain. Qed.

(** Arguments of a declared predicate (formatter.py print_predicates_with_types): several types
    are printed as (either ...), so only the order matters. *)
Theorem C43_predicate_partial : forall n vs f, Forall legal_var vs -> mk_pred n (map TVar vs) = Ok f ->
  ((exists ws, predicate_in (show_pred_decl (n, map TVar vs)) = Ok (n, map TVar ws)
               /\ Forall2 same_var ws vs) <-> untyped_last vs).
Proof.
  intros n vs f L H. apply mk_pred_iff in H as (_ & N & R). apply predicate_in_decl; auto.
  intros v w Hv Hw E x. apply (R (TVar v) (TVar w)); auto; now apply in_map.
Qed.

(** Arguments of a declared function (formatter.py print_function_skeleton). *)
Theorem C43_function_partial : forall n vs f, Forall legal_var vs -> mk_numfun n (map TVar vs) = Ok f ->
  n <> "total-cost" ->
  ((exists ws, function_in (function_skeleton (n, map TVar vs)) = Ok (n, map TVar ws)
               /\ Forall2 same_var ws vs) <->
   Forall one_type vs /\ untyped_last vs /\ repeats_same vs).
Proof.
  intros n vs f L H NT. apply function_in_skeleton; auto.
  unfold mk_numfun in H. apply bind_Ok in H as (n' & H & _). now apply parse_function_Ok' in H.
Qed.

(** The property as stated is false: an untyped variable before a typed one takes its type, in
    each of the four printed forms; several types make the text unreadable; a function keeps one. *)
Theorem C43_refuted :
  let x := mkVar "x" [] in let y := mkVar "y" ["t"] in let y' := mkVar "y" ["t"; "u"] in
  let xt := mkVar "x" ["t"] in
  Forall legal_var [x; y; y'; xt]
  /\ variables_in (typed_parameters [TVar x; TVar y]) = Ok [xt; y]
  /\ variables_in (join " " (map show_qvar [x; y])) = Ok [xt; y]
  /\ predicate_in (show_pred_decl ("p", [TVar x; TVar y])) = Ok ("p", [TVar xt; TVar y])
  /\ function_in (function_skeleton ("f", [TVar x; TVar y])) = Ok ("f", [TVar xt; TVar y])
  /\ variables_in (typed_parameters [TVar y']) = Err LarkSyntaxError
  /\ variables_in (join " " (map show_qvar [y'])) = Err LarkSyntaxError
  /\ function_in (function_skeleton ("f", [TVar y'])) = Ok ("f", [TVar y]).
Proof.
  intros x y y' xt. split.
  - repeat (apply Forall_cons; [apply C43_variables|]); [| | | |apply Forall_nil].
    + exists "x", (CSet []). vm_compute. reflexivity.
    + exists "y", (CSet ["t"]). vm_compute. reflexivity.
    + exists "y", (CSet ["t"; "u"]). vm_compute. reflexivity.
    + exists "x", (CSet ["t"]). vm_compute. reflexivity.
  - repeat split; vm_compute; reflexivity.
Qed.

(** a list that meets the conditions, and its texts *)
Example C43_ex :
  let vs := [mkVar "x" ["block"]; mkVar "y" ["table"]; mkVar "z" []] in
  Forall legal_var vs /\ Forall one_type vs /\ untyped_last vs /\ repeats_same vs
  /\ typed_parameters (map TVar vs) = "?x - block ?y - table ?z"
  /\ (exists f, mk_pred "on" (map TVar vs) = Ok f) /\ (exists f, mk_numfun "dist" (map TVar vs) = Ok f).
Proof.
  intros vs. split; [|split; [|split; [|split; [|split; [|split]]]]].
  - repeat (apply Forall_cons; [apply C43_variables|]); [| | |apply Forall_nil].
    + exists "x", (CSet ["block"]). vm_compute. reflexivity.
    + exists "y", (CSet ["table"]). vm_compute. reflexivity.
    + exists "z", (CSet []). vm_compute. reflexivity.
  - repeat constructor.
  - exists [mkVar "x" ["block"]; mkVar "y" ["table"]], [mkVar "z" []]. repeat constructor; discriminate.
  - intros v w [<-|[<-|[<-|[]]]] [<-|[<-|[<-|[]]]] E; try discriminate; intros g; tauto.
  - vm_compute. reflexivity.
  - eexists. vm_compute. reflexivity.
  - eexists. vm_compute. reflexivity.
Qed.
Example C43_either_ex :
  show_pred_decl ("on", [TVar (mkVar "x" ["u"; "t"]); TVar (mkVar "y" [])])
    = "(on ?x - (either t u) ?y)  "
  /\ predicate_in "(on ?x - (either t u) ?y)  "
     = Ok ("on", [TVar (mkVar "x" ["t"; "u"]); TVar (mkVar "y" [])]).
Proof. split; vm_compute; reflexivity. Qed.

Print Assumptions C43_variables.
Print Assumptions C43_parameters_partial.
Print Assumptions C43_quantifier_partial.
Print Assumptions C43_predicate_partial.
Print Assumptions C43_function_partial.
Print Assumptions C43_refuted.
