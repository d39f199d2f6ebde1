(** Model of lulua-write's process pipeline, text.py:332-463, as a transition
    system: one main process, [jobs] workers, one status process and three
    bounded queues.

    Queues are multiprocessing.Queue.  [put] blocks while the queue is full
    (maxsize 0 means unbounded), [get] blocks while it is empty.  Every queue has
    a sender thread per process, so elements put by different processes can
    arrive in any order: the result queue and the status queue are bags (get
    returns any element), the input queue, which is only written by the main
    process, is FIFO.  [empty()] may still report an empty queue shortly after a
    put; it never reports a non-empty one for an empty queue.

    KeyboardInterrupt: IntrModel.v.  Not modelled: processes killed from the outside,
    filters that never return, the progress bar. *)
From Verif Require Import Base.
Open Scope list_scope.

Section Pipe.
  Context {L E : Type}.
  (** What happens when a worker runs lines 343-370 for an item: an exception,
      or success (None). *)
  Variable fails : L -> option E.

  (** What workers send, text.py:371-377.  [RResult acc]: [combined] (or None if
      there were no texts) after processing the items [acc].  [RExn e lost]: an
      exception; the items [lost] (not sent by the program) went into the lost
      [combined] object. *)
  Inductive reply := RResult (acc : list L) | RExn (e : E) (lost : list L).
  (** Worker, text.py:338-377: at line 339; at line 369; at line 371-374; at
      line 377; finished. *)
  Inductive wstate := WIdle (acc : list L) | WStatus (acc : list L) | WOut (acc : list L) | WErr (e : E) (lost : list L) | WDead.
  (** Main process: line 436/437; line 440; line 447/448 with k workers left in
      the loop; line 449 with k left after this one; line 456; 457; 460;
      returned; raised. *)
  Inductive mstate := MRead | MCheck | MExit (k : nat) | MGet (k : nat) | MStatus | MJoin | MJoinW | MDone
    | MRaised (e : E) | MAssert.
  (** Messages to the status process, text.py:369, 456 *)
  Inductive smsg := SItem | SEnd.

  Record state := mkState {
    main : mstate; rest : list L;          (* rest: lines not read yet *)
    inq : list (option L); outq : list reply; statusq : list smsg;
    workers : list wstate; status_done : bool;
    outputs : list (list L) }.             (* what was received, line 449-453 *)

  (** maxsize 0 is unlimited *)
  Definition full {A} (cap : nat) (q : list A) : bool := negb (Nat.eqb cap 0) && Nat.leb cap (length q).

  (** text.py:415-433 *)
  Definition init (jobs : nat) (lines : list L) : state :=
    mkState MRead lines [] [] [] (repeat (WIdle []) jobs) false [].

  Variable jobs : nat.
  Inductive step : state -> state -> Prop :=
  (* text.py:436-437 *)
  | step_put l r iq oq sq ws sd out : full (jobs * 2) iq = false ->
      step (mkState MRead (l :: r) iq oq sq ws sd out) (mkState MCheck r (iq ++ [Some l]) oq sq ws sd out)
  | step_eof iq oq sq ws sd out :
      step (mkState MRead [] iq oq sq ws sd out) (mkState (MExit jobs) [] iq oq sq ws sd out)
  (* text.py:440-441 *)
  | step_go_on r iq oq sq ws sd out :
      step (mkState MCheck r iq oq sq ws sd out) (mkState MRead r iq oq sq ws sd out)
  | step_break r iq oq sq ws sd out : oq <> [] ->
      step (mkState MCheck r iq oq sq ws sd out) (mkState (MExit jobs) r iq oq sq ws sd out)
  (* text.py:447-448 *)
  | step_put_none k r iq oq sq ws sd out : full (jobs * 2) iq = false ->
      step (mkState (MExit (S k)) r iq oq sq ws sd out) (mkState (MGet k) r (iq ++ [None]) oq sq ws sd out)
  (* text.py:449-453 *)
  | step_get_result k acc r iq q1 q2 sq ws sd out :
      step (mkState (MGet k) r iq (q1 ++ RResult acc :: q2) sq ws sd out) (mkState (MExit k) r iq (q1 ++ q2) sq ws sd (out ++ [acc]))
  | step_get_exn k e lost r iq q1 q2 sq ws sd out :
      step (mkState (MGet k) r iq (q1 ++ RExn e lost :: q2) sq ws sd out) (mkState (MRaised e) r iq (q1 ++ q2) sq ws sd out)
  (* text.py:454 *)
  | step_assert_ok r iq oq sq ws sd out :
      step (mkState (MExit 0) r iq oq sq ws sd out) (mkState MStatus r iq oq sq ws sd out)
  | step_assert_fail r iq oq sq ws sd out : oq <> [] ->
      step (mkState (MExit 0) r iq oq sq ws sd out) (mkState MAssert r iq oq sq ws sd out)
  (* text.py:456 *)
  | step_status_end r iq oq sq ws sd out : full (jobs + 1) sq = false ->
      step (mkState MStatus r iq oq sq ws sd out) (mkState MJoin r iq oq (sq ++ [SEnd]) ws sd out)
  (* text.py:457 *)
  | step_join_status r iq oq sq ws out :
      step (mkState MJoin r iq oq sq ws true out) (mkState MJoinW r iq oq sq ws true out)
  (* text.py:460-463 *)
  | step_join_workers r iq oq sq ws sd out : Forall (fun w => w = WDead) ws ->
      step (mkState MJoinW r iq oq sq ws sd out) (mkState MDone r iq oq sq ws sd out)
  (* text.py:339-370: an item *)
  | step_work l m r iq oq sq w1 acc w2 sd out : fails l = None ->
      step (mkState m r (Some l :: iq) oq sq (w1 ++ WIdle acc :: w2) sd out) (mkState m r iq oq sq (w1 ++ WStatus (acc ++ [l]) :: w2) sd out)
  | step_work_fail l e m r iq oq sq w1 acc w2 sd out : fails l = Some e ->
      step (mkState m r (Some l :: iq) oq sq (w1 ++ WIdle acc :: w2) sd out) (mkState m r iq oq sq (w1 ++ WErr e (acc ++ [l]) :: w2) sd out)
  (* text.py:340-341 *)
  | step_work_end m r iq oq sq w1 acc w2 sd out :
      step (mkState m r (None :: iq) oq sq (w1 ++ WIdle acc :: w2) sd out) (mkState m r iq oq sq (w1 ++ WOut acc :: w2) sd out)
  (* text.py:369 *)
  | step_work_status m r iq oq sq w1 acc w2 sd out : full (jobs + 1) sq = false ->
      step (mkState m r iq oq sq (w1 ++ WStatus acc :: w2) sd out) (mkState m r iq oq (sq ++ [SItem]) (w1 ++ WIdle acc :: w2) sd out)
  (* text.py:371-374 *)
  | step_work_out m r iq oq sq w1 acc w2 sd out : full (jobs + 1) oq = false ->
      step (mkState m r iq oq sq (w1 ++ WOut acc :: w2) sd out) (mkState m r iq (oq ++ [RResult acc]) sq (w1 ++ WDead :: w2) sd out)
  (* text.py:377 *)
  | step_work_err m r iq oq sq w1 e lost w2 sd out : full (jobs + 1) oq = false ->
      step (mkState m r iq oq sq (w1 ++ WErr e lost :: w2) sd out) (mkState m r iq (oq ++ [RExn e lost]) sq (w1 ++ WDead :: w2) sd out)
  (* text.py:383, 386 *)
  | step_status_item m r iq oq q1 q2 ws out :
      step (mkState m r iq oq (q1 ++ SItem :: q2) ws false out) (mkState m r iq oq (q1 ++ q2) ws false out)
  (* text.py:384-385 *)
  | step_status_stop m r iq oq q1 q2 ws out :
      step (mkState m r iq oq (q1 ++ SEnd :: q2) ws false out) (mkState m r iq oq (q1 ++ q2) ws true out).
End Pipe.
Arguments reply : clear implicits.
Arguments wstate : clear implicits.
Arguments mstate : clear implicits.
Arguments state : clear implicits.
