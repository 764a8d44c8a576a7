(** Properties of numbers in texts (C38). *)
From Coq Require Import String List Bool ZArith QArith.
From Verif Require Import Py Names Reqs Logic Validation Core Lexer TypedList UpdateTags Parser.
From Verif Require Import Spec Spec_Parse Spec_Numbers.
From Verif Require Import Number_facts NumberText_facts.
Import ListNotations.
Open Scope string_scope.
Open Scope list_scope.

(** * C38  Numbers keep their value through parsing *)

(** a decimal numeral is one token, and the parser gives it its value; every number token that the
    parser accepts is a decimal numeral *)
Theorem C38_literal :
  (forall s q, numeral s q ->
     lex s = [TNum s]
     /\ exists v r, num_literal s = Ok v /\ num_value v = Some r /\ (r == q)%Q)
  /\ (forall text l x s v, read_text text = Some l -> In x l -> number_in s x ->
        num_literal s = Ok v ->
        exists q r, numeral s q /\ num_value v = Some r /\ (r == q)%Q).
Proof.
  exact (conj (fun s q H => conj (lex_numeral s q H) (numeral_literal s q H))
              (fun text l x s v R I N => literal_numeral s v (read_text_tok text l x s R I N))).
Qed.
Print Assumptions C38_literal.

(** a numeral without a point becomes an int, one with a point a float *)
Theorem C38_kind :
  forall s,
    (forall z, s <> "" -> horner 0 s = Some z -> num_literal s = Ok (NInt z))
    /\ (forall i f z w, s = i +++ "." +++ f -> i <> "" -> f <> "" ->
          horner 0 i = Some z -> horner 0 f = Some w ->
          exists v, num_literal s = Ok (NDec v (String.length f))).
Proof. exact literal_kind. Qed.
Print Assumptions C38_kind.

(** preconditions and effects: by value, the numbers of the parsed action are the numbers written *)
Theorem C38_actions_partial :
  forall s n sections d, domain_text s n sections -> parse_domain_fresh s = Ok d ->
    (forall a, In a (d_actions d) ->
       exists ps x y p e,
         In (section_sx ":action" [name_sx (a_name a); SAtom (TKw ":parameters"); SList ps;
               SAtom (TKw ":precondition"); x; SAtom (TKw ":effect"); y]) sections
         /\ a_pre a = Some p /\ a_eff a = Some e /\ same_numbers x p /\ same_numbers y e)
    /\ (forall an ps x y,
         In (section_sx ":action" [name_sx an; SAtom (TKw ":parameters"); SList ps;
               SAtom (TKw ":precondition"); x; SAtom (TKw ":effect"); y]) sections ->
         exists a p e, In a (d_actions d) /\ a_name a = an
           /\ a_pre a = Some p /\ a_eff a = Some e /\ same_numbers x p /\ same_numbers y e).
Proof.
  intros s n l d T P. unfold parse_domain_fresh in P.
  destruct (parse_domain s init_dstate) as [st' r] eqn:E. cbn [snd] in P. subst r.
  exact (parsed_numbers _ _ _ _ _ _ T E).
Qed.
Print Assumptions C38_actions_partial.

(** initial states and goals *)
Theorem C38_problem_partial :
  forall s n dn sections p, problem_text s n dn sections -> parse_problem s = Ok p ->
    exists before inits g after,
      sections = before ++ section_sx ":init" inits :: section_sx ":goal" [g] :: after
      /\ (forall x, In x inits -> exists f, In f (p_init p) /\ same_numbers x f)
      /\ (forall f, In f (p_init p) -> exists x, In x inits /\ same_numbers x f)
      /\ same_numbers g (p_goal p).
Proof. exact parsed_problem_numbers. Qed.
Print Assumptions C38_problem_partial.

(** metrics: no number of a parsed metric has a numeric value; it is the text that was written *)
Theorem C38_metric_raw :
  forall s p m v, parse_problem s = Ok p -> p_metric p = Some m ->
    within (FNumVal v) (me_expr m) -> num_value v = None.
Proof.
  intros s p m v P M W. destruct (parsed_metric_raw s p m v P M W) as [t ->]. reflexivity.
Qed.
Print Assumptions C38_metric_raw.

Definition cost_problem : string :=
  "(define (problem q) (:domain d) (:init (= (cost) 12.50) (= (fuel) 007))
     (:goal (>= (fuel) 3)) (:metric minimize (+ (cost) 2.5)))".
(** so the claim is false for metrics *)
Theorem C38_refuted :
  exists p m g, parse_problem cost_problem = Ok p /\ p_metric p = Some m
    /\ (exists before, problem_text cost_problem "q" "d"
          (before ++ [section_sx ":metric" [name_sx "minimize"; g]]))
    /\ number_in "2.5" g
    /\ numeral "2.5" (5 # 2) /\ ~ contains_number (5 # 2) (me_expr m).
Proof.
  do 3 eexists. split; [vm_compute; reflexivity|]. split; [reflexivity|].
  split; [|split; [|split]].
  - eexists [_; _]. vm_compute. reflexivity.
  - eapply NI_list; [right; right; left; reflexivity|]. apply NI_atom.
  - right. exists "2", "5", 2%Z, 5%Z. repeat split; discriminate || reflexivity.
  - intros (v & r & W & V & _).
    assert (E : exists p m, parse_problem cost_problem = Ok p /\ p_metric p = Some m
      /\ within (FNumVal v) (me_expr m)).
    { do 2 eexists. split; [vm_compute; reflexivity|]. split; [reflexivity|]. exact W. }
    destruct E as (p & m & P & M & W'). rewrite (C38_metric_raw _ _ _ _ P M W') in V. discriminate.
Qed.
Print Assumptions C38_refuted.

(** two initial values, 12.50 and 007, and the 3 of the goal *)
Example C38_witness :
  numeral "12.50" (25 # 2) /\ numeral "007" 7
  /\ exists p, parse_problem cost_problem = Ok p
     /\ p_init p = [FBinFun BEqual [FNumFun "cost" []; FNumVal (NDec 1250 2)];
                    FBinFun BEqual [FNumFun "fuel" []; FNumVal (NInt 7)]]
     /\ p_goal p = FBinFun BGreaterEq [FNumFun "fuel" []; FNumVal (NInt 3)].
Proof.
  split; [|split].
  - right. exists "12", "50", 12%Z, 50%Z. repeat split; discriminate || reflexivity.
  - left. exists 7%Z. repeat split; discriminate || reflexivity.
  - eexists. split; [vm_compute; reflexivity|]. split; reflexivity.
Qed.
Definition fuel_domain : string :=
  "(define (domain d) (:requirements :numeric-fluents) (:functions (fuel))
     (:action go :parameters () :precondition (and (>= (fuel) 1.5) (< (fuel) (* 2 10)))
        :effect (when (= (fuel) 3) (decrease (fuel) (+ 1 0.50)))))".
Example C38_action_witness :
  exists n l d a, domain_text fuel_domain n l /\ parse_domain_fresh fuel_domain = Ok d
    /\ d_actions d = [a].
Proof. do 4 eexists. split; [vm_compute; reflexivity|]. split; [vm_compute; reflexivity|reflexivity]. Qed.
(** a number with two dots is refused *)
Example C38_two_dots : lex "1.2.3" = [TNum "1.2.3"] /\ num_literal "1.2.3" = Err ValueError.
Proof. split; reflexivity. Qed.
