(** Vocabulary for executions of the pipeline. *)
From Verif Require Import Base PipeModel.
Open Scope list_scope.

Section Spec.
  Context {L E : Type}.
  Variable fails : L -> option E.
  Variable jobs : nat.
  Notation state := (state L E).
  Notation step := (step fails jobs).

  (** States reachable from the start. *)
  Inductive reachable (lines : list L) : state -> Prop :=
    | reach_init : reachable lines (init jobs lines)
    | reach_next s s' : reachable lines s -> step s s' -> reachable lines s'.
  (** The main process returned or raised an exception; the other processes are
      daemons and die with it. *)
  Definition finished (s : state) : Prop :=
    match main s with MDone | MRaised _ | MAssert => True | _ => False end.
  Definition stuck (s : state) : Prop := ~ finished s /\ forall s', ~ step s s'.
  (** Executions of [n] steps. *)
  Inductive run : nat -> state -> state -> Prop :=
    | run_0 s : run 0 s s
    | run_S n s s' s'' : step s s' -> run n s' s'' -> run (S n) s s''.
  Definition is_exn (r : reply L E) : Prop := match r with RExn _ _ => True | _ => False end.
End Spec.
