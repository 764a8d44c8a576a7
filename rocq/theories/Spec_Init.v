(** Specification: what an element of the :init section of a problem text says (C51).
    Nothing here models code. *)
From Coq Require Import String List Bool QArith.
From Verif Require Import Py Names Reqs Logic Lexer Spec_Parse Spec_Features Spec_Numbers Spec_Declared.
Import ListNotations.
Open Scope string_scope.
Open Scope list_scope.

(** the constant written [n]: with the type its declaration gives it, if there is one *)
Definition names_object (sections : list sexp) (n : string) (t : term) : Prop :=
  exists g, t = TConst n g
    /\ (declares_name ":objects" sections n g
        \/ g = None /\ ~ exists h, declares_name ":objects" sections n h).

(** [(p a b)], [(not (p a b))], [(= (f a b) 3.5)] and [(= f 3.5)] *)
Inductive init_says (sections : list sexp) : sexp -> form -> Prop :=
| IS_atom p ns ts : p <> "not" -> Forall2 (names_object sections) ns ts ->
    init_says sections (SList (name_sx p :: map name_sx ns)) (FPred p ts)
| IS_not p ns ts : Forall2 (names_object sections) ns ts ->
    init_says sections (SList [name_sx "not"; SList (name_sx p :: map name_sx ns)]) (FNot (FPred p ts))
| IS_value f ns s q v r : numeral s q -> num_value v = Some r -> (r == q)%Q ->
    init_says sections (SList [SAtom (TOp "="); SList (name_sx f :: map name_sx ns); SAtom (TNum s)])
              (FBinFun BEqual [FNumFun f (map (fun n => TConst n None) ns); FNumVal v])
| IS_value0 f s q v r : numeral s q -> num_value v = Some r -> (r == q)%Q ->
    init_says sections (SList [SAtom (TOp "="); name_sx f; SAtom (TNum s)])
              (FBinFun BEqual [FNumFun f []; FNumVal v]).
