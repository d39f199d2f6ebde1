(** Model of SIGINT for lulua-write, text.py:435-443; the rest of the pipeline is PipeModel.v. *)
From Verif Require Import Base PipeModel.
Open Scope list_scope.

Section Intr.
  Context {L E : Type}.
  Variable jobs : nat.
  Notation state := (state L E).

  (** text.py:442-443: the main process alone gets the signal while it reads; a line that was read but not
      put into the queue yet is lost, like those not read. *)
  Inductive interrupt : state -> state -> Prop :=
  | int_read r iq oq sq ws sd out : interrupt (mkState MRead r iq oq sq ws sd out) (mkState (MExit jobs) r iq oq sq ws sd out)
  | int_lost l r iq oq sq ws sd out : interrupt (mkState MRead (l :: r) iq oq sq ws sd out) (mkState (MExit jobs) r iq oq sq ws sd out)
  | int_check r iq oq sq ws sd out : interrupt (mkState MCheck r iq oq sq ws sd out) (mkState (MExit jobs) r iq oq sq ws sd out).
  (** Control-C in a terminal: all processes get it.  KeyboardInterrupt is no Exception (text.py:375, 388), so
      workers and the status process end without a reply. *)
  Inductive interrupt_all : state -> state -> Prop :=
  | all_read s r iq oq sq ws sd out : interrupt s (mkState (MExit jobs) r iq oq sq ws sd out) ->
      interrupt_all s (mkState (MExit jobs) r iq oq sq (map (fun _ => WDead) ws) true out).
End Intr.
