(** Model of pddl/__main__.py (the command line tool) and of the functions of pddl/__init__.py it
    calls.  A file is its contents; click's checks of the arguments (that the files exist) are not
    modelled. *)
From Coq Require Import String List Bool.
From Verif Require Import Py Names Logic Validation Core Show Parser.
Import ListNotations.
Open Scope string_scope.
Open Scope list_scope.

(** a computation that writes to standard output: what it has written, and how it ends *)
Definition W (A : Type) := (list string * res A)%type.
(** a call that writes nothing *)
Definition lift {A} (r : res A) : W A := ([], r).
(** statements in sequence (__main__.py:39-56) *)
Definition bindW {A B} (m : W A) (k : A -> W B) : W B :=
  match snd m with
  | Ok a => let n := k a in (fst m ++ fst n, snd n)
  | Err e => (fst m, Err e)
  end.
Notation "'run' x '<-' m ';' k" := (bindW m (fun x => k))
  (at level 200, x pattern, m at level 100, k at level 200).
(** print(s); with --quiet, sys.stdout is the null device (__main__.py:41-42) *)
Definition print (quiet : bool) (s : string) : W unit := (if quiet then [] else [s +++ nl], Ok tt).

(** __main__.py:39-56 cli; pddl/__init__.py:31-52 parse_domain, parse_problem, parse_plan make a new
    parser each.  click only gives a plan file when there is a problem file. *)
Definition cli (quiet : bool) (domain_file : string) (problem_file plan_file : option string) : W unit :=
  run d <- lift (parse_domain_fresh domain_file);
  run ds <- lift (show_domain d);
  run _ <- print quiet ds;
  match problem_file with
  | None => lift (Ok tt)
  | Some pf =>
      run p <- lift (parse_problem pf);
      run _ <- lift (problem_check p d);
      run _ <- print quiet (show_problem p);
      match plan_file with
      | None => lift (Ok tt)
      | Some lf =>
          run pl <- lift (parse_plan lf);
          run _ <- lift (plan_check pl d p);
          print quiet (show_plan pl)
      end
  end.
