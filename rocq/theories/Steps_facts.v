(** Plans: texts and plans put one after the other. *)
From Coq Require Import String Ascii List Bool.
From Verif Require Import Py Names Logic Validation Core Lexer Parser.
From Verif Require Import Spec_Layout Spec_Parse Spec_Steps.
From Verif Require Import Py_facts Names_facts Logic_facts.
Import ListNotations.
Open Scope string_scope.
Open Scope list_scope.

Lemma lex_newline s : forall q t, lex_from q (s +++ String newline t) = lex_from q s ++ lex t.
Proof.
  induction s as [|c s IH]; intros q t.
  - cbn [append lex_from]. destruct q; cbn; rewrite <- ?app_assoc; reflexivity.
  - change (String c s +++ String newline t) with (String c (s +++ String newline t)). cbn [lex_from]. destruct (lstep q c) as [q' ts]. now rewrite IH, app_assoc.
Qed.
Lemma read_stack t1 : forall stack out l t2,
  read_from stack out t1 = Some l -> read_from stack out (t1 ++ t2) = read_from [] (rev l) t2.
Proof.
  induction t1 as [|t t1 IH]; intros stack out l t2 H.
  - cbn in H. destruct stack; [|discriminate]. injection H as <-. cbn [app]. now rewrite rev_involutive.
  - cbn [app]. destruct t; cbn [read_from] in *; auto. destruct stack; [discriminate|]. auto.
Qed.
Lemma read_below b ts :
  (forall out, read_from [] (out ++ b) ts = option_map (app (rev b)) (read_from [] out ts)) /\
  (forall stack o out, read_from (stack ++ [o ++ b]) out ts = option_map (app (rev b)) (read_from (stack ++ [o]) out ts)).
Proof.
  induction ts as [|t ts [IH1 IH2]].
  - split; [intros out; cbn; now rewrite rev_app_distr|]. intros [|s stack] o out; reflexivity.
  - split.
    + intros out. destruct t; cbn [read_from]; try (exact (IH1 (_ :: out))); [|reflexivity]. exact (IH2 [] out []).
    + intros stack o out. destruct t; cbn [read_from]; try (exact (IH2 stack o (_ :: out))).
      * exact (IH2 (out :: stack) o []).
      * destruct stack as [|u stack]; cbn [app]; [exact (IH1 (_ :: o))|exact (IH2 stack o (_ :: u))].
Qed.
Lemma read_app t1 t2 l : read t1 = Some l -> read (t1 ++ t2) = option_map (app l) (read t2).
Proof.
  intros H. unfold read. rewrite (read_stack _ _ _ _ _ H). rewrite <- (app_nil_l (rev l)).
  destruct (read_below (rev l) t2) as [E _]. now rewrite E, rev_involutive.
Qed.
Lemma read_text_lines s t l : read_text s = Some l -> read_text (s +++ String newline t) = option_map (app l) (read_text t).
Proof. unfold read_text, lex. rewrite lex_newline. apply read_app. Qed.

Lemma mapR_app {A B} (f : A -> res B) l m : mapR f (l ++ m) = (let* a := mapR f l in let* b := mapR f m in Ok (a ++ b)).
Proof.
  induction l as [|x l IH]; cbn [app mapR bind]; [now destruct (mapR f m)|]. destruct (f x); cbn [bind]; auto. rewrite IH.
  destruct (mapR f l); cbn [bind]; auto. now destruct (mapR f m).
Qed.
Lemma iterR_app {A} (f : A -> res unit) l m : iterR f (l ++ m) = (iterR f l ;; iterR f m).
Proof. induction l as [|x l IH]; cbn [app iterR bind]; auto. destruct (f x) as [[]|]; cbn [bind]; auto. Qed.

Lemma ground_action_iff x st : ground_action x = Ok st <->
  x = step_sx st /\ Forall (fun c => legal_name (fst c) /\ snd c = None) (snd st).
Proof.
  split.
  - intros H. unfold ground_action in H. destruct x as [|[|[[]|] args]]; try discriminate.
    apply bind_Ok in H as (ns & A & H). apply bind_Ok in H as (ts & T & H). injection H as <-. cbn [fst snd]. unfold step_sx. cbn [fst snd].
    assert (E : args = map name_sx ns).
    { destruct (mapO word args) as [ns'|] eqn:M; [|discriminate]. injection A as ->. clear - M. revert ns M.
      induction args as [|a args IH]; intros ns M; cbn in M; [injection M as <-; reflexivity|].
      destruct a as [[]|]; try discriminate. cbn in M. destruct (mapO word args); [|discriminate]. injection M as <-. cbn [map]. now rewrite (IH l). }
    subst args. clear A. apply mapR_Ok in T.
    assert (K : map (fun c => name_sx (fst c)) (map const_of ts) = map name_sx ns /\ Forall (fun c => legal_name (fst c) /\ snd c = None) (map const_of ts)).
    { induction T as [|n t ns ts E T [IH1 IH2]]; [split; [reflexivity|constructor]|]. apply mk_const_Ok in E as (-> & L & _).
      cbn [map const_of fst]. rewrite IH1. split; [reflexivity|]. constructor; auto. }
    destruct K as [K1 K2]. now rewrite K1.
  - intros [-> F]. destruct st as [n cs]. unfold step_sx, name_sx. cbn [fst snd ground_action] in *.
    assert (E : mapO word (map (fun c : const => SAtom (TWord (fst c))) cs) = Some (map fst cs)).
    { clear. induction cs as [|c cs IH]; [reflexivity|]. cbn [map mapO word]. now rewrite IH. }
    unfold const in *. rewrite E. clear E. cbn [of_opt bind].
    assert (M : mapR (fun x => mk_const x None) (map fst cs) = Ok (map const_term cs) /\ map const_of (map const_term cs) = cs).
    { induction F as [|[c g] cs [L N] F [IH1 IH2]]; [split; reflexivity|]. cbn [fst snd] in *. subst g. cbn [map mapR fst].
      replace (mk_const c None) with (Ok (TConst c None) : res term) by (symmetry; apply mk_const_Ok; split; [reflexivity|split; [exact L|exact Logic.I]]).
      cbn [bind]. rewrite IH1. cbn [bind]. split; [reflexivity|]. cbn [map]. f_equal. exact IH2. }
    { destruct M as [M1 M2]. rewrite M1. cbn [bind]. do 2 f_equal. exact M2. }
Qed.
