(** What the number of iterations of a loop is, and how big a graph is (for C76). *)
From Coq Require Import String List.
From Verif Require Import Validation.
Import ListNotations.

(** the state after [n] iterations, or the result if the loop has ended by then *)
Fixpoint rounds {St R} (step : St -> St + R) (n : nat) (s : St) : St + R :=
  match n with
  | O => inl s
  | S m => match step s with inl s' => rounds step m s' | inr r => inr r end
  end.

(** find_cycle before its first iteration *)
Definition fc_start (g : graph) : fc_state := mkFc (map fst g) [] [].

(** the call returns [r] within [n] iterations *)
Definition answers_within (g : graph) (n : nat) (r : option (list string)) : Prop :=
  rounds (fc_step g) n (fc_start g) = inr r.
(** the call is still running after [n] iterations *)
Definition still_running (g : graph) (n : nat) : Prop :=
  exists s, rounds (fc_step g) n (fc_start g) = inl s.

(** no node has more than one successor *)
Definition one_successor (g : graph) : Prop :=
  forall k ns, In (k, Some ns) g -> length ns <= 1.
(** the number of edges *)
Definition edges (g : graph) : nat :=
  list_sum (map (fun kv => match snd kv with Some ns => length ns | None => 0 end) g).
