(** C76: how long the search for cycles takes. *)
From Coq Require Import String List Lia PeanoNat.
From Verif Require Import Py Req Names Reqs Logic Validation Spec Spec_Cost Cost_facts.
Import ListNotations.
Open Scope string_scope.
Open Scope list_scope.

(** The answer comes after at most (n + 1)^2 iterations when each of the n nodes has at most one
    successor, and it is the answer of C09 and C10. *)
Theorem C76_one_successor_partial : forall g, one_successor g ->
  exists r, answers_within g ((length g + 1) * (length g + 1)) r /\ exists m, find_cycle_run m g = Some r.
Proof.
  intros g H. destruct (one_successor_rounds g H) as (r & E). exists r. split; [exact E|].
  now apply answers_run in E.
Qed.
Print Assumptions C76_one_successor_partial.

(** In particular for every hierarchy of n types. *)
Theorem C76_types : forall d, exists r,
  answers_within (types_graph d) ((length d + 1) * (length d + 1)) r /\
  exists m, find_cycle_run m (types_graph d) = Some r.
Proof.
  intros d. assert (L : length (types_graph d) = length d) by apply map_length.
  rewrite <- L. apply C76_one_successor_partial, types_one_successor.
Qed.
Print Assumptions C76_types.

(** It can take about half of that: a line of n types listed parents first. *)
Theorem C76_types_quadratic : forall n, exists d, length d = n /\ NoDup (map fst d) /\
  mk_types (Some d) [TYPING] false = Ok d /\
  forall k, 2 * k <= n * (n + 3) -> still_running (types_graph d) k.
Proof.
  intros n. exists (line n). split; [unfold line; now rewrite map_length, seq_length|].
  split; [apply line_NoDup|]. split; [apply line_accepted|]. intros k L.
  assert (E : exists h, 2 * h = n * (n + 3)).
  { clear. induction n as [|n (h & E)]; [now exists 0|]. exists (h + n + 2). nia. }
  destruct E as (h & E). destruct (line_running n h E) as (s & R).
  unfold still_running. eapply rounds_le; [|exact R]. lia.
Qed.
Print Assumptions C76_types_quadratic.

(** In general the number of iterations is exponential: the call is still running after 2^m
    iterations on some graph without cycles that has m + 1 nodes. *)
Theorem C76_refuted : forall m, exists g, length g = m + 1 /\ 2 * edges g = m * (m + 1) /\
  NoDup (map fst g) /\ acyclic g /\ still_running g (2 ^ m).
Proof.
  intros m. exists (full m). split; [apply full_length|]. split; [apply full_edges|].
  split; [apply full_NoDup|]. split; [apply full_acyclic|apply full_running].
Qed.
Print Assumptions C76_refuted.

Example C76_ex :
  let g := [("a", Some ["b"]); ("b", Some ["c"]); ("c", Some ["b"])] in
  one_successor g /\ answers_within g 5 (Some ["a"; "b"; "c"]) /\ still_running g 4 /\
  answers_within (types_graph [("truck", Some "thing"); ("van", Some "truck")]) 8 None.
Proof.
  split; [|repeat split; try (vm_compute; reflexivity); eexists; vm_compute; reflexivity].
  intros k ns [H|[H|[H|[]]]]; injection H as <- <-; cbn; lia.
Qed.
