(** lulua-write and SIGINT. *)
From Coq Require Import Permutation Lia.
From Verif Require Import Base PipeModel PipeSpec PipeProofs PropsPipe IntrModel.
Open Scope list_scope.
Unset Implicit Arguments.

Section Intr.
  Context {L E : Type} `{EqDec L}.
  Variable fails : L -> option E.
  Variable jobs : nat.
  Notation state := (state L E).
  Notation reachable := (reachable fails jobs).
  Notation step := (step fails jobs).
  Definition set_rest (s : state) (r : list L) : state := mkState (main s) r (inq s) (outq s) (statusq s) (workers s) (status_done s) (outputs s).
  Definition reading (s : state) : Prop := match main s with MRead | MCheck => True | _ => False end.
  Lemma set_rest_same (s : state) : set_rest s (rest s) = s. Proof. destruct s; reflexivity. Qed.
  (** Lines not read yet make no difference. *)
  Lemma shorter lines s : reachable lines s -> forall r0 r, rest s = r0 ++ r -> reading s -> exists q, lines = q ++ r /\ reachable q (set_rest s r0).
  Proof.
    induction 1 as [|s s' R IH S]; intros r0 r Er Rd; [exists r0; split; [exact Er|constructor]|].
    inversion S; subst; cbn [rest] in *; try (destruct Rd; fail).
    - destruct (IH (l :: r0) r) as (q & Eq & Rq); [rewrite Er; reflexivity|exact I|]. exists q. split; [exact Eq|]. econstructor 2; [exact Rq|]. apply step_put. assumption.
    - destruct (IH r0 r Er I) as (q & Eq & Rq). exists q. split; [exact Eq|]. econstructor 2; [exact Rq|]. apply step_go_on.
    - destruct (IH r0 r Er Rd) as (q & Eq & Rq). exists q. split; [exact Eq|]. econstructor 2; [exact Rq|]. apply step_work. assumption.
    - destruct (IH r0 r Er Rd) as (q & Eq & Rq). exists q. split; [exact Eq|]. econstructor 2; [exact Rq|]. apply step_work_fail. assumption.
    - destruct (IH r0 r Er Rd) as (q & Eq & Rq). exists q. split; [exact Eq|]. econstructor 2; [exact Rq|]. apply step_work_end.
    - destruct (IH r0 r Er Rd) as (q & Eq & Rq). exists q. split; [exact Eq|]. econstructor 2; [exact Rq|]. apply step_work_status. assumption.
    - destruct (IH r0 r Er Rd) as (q & Eq & Rq). exists q. split; [exact Eq|]. econstructor 2; [exact Rq|]. apply step_work_out. assumption.
    - destruct (IH r0 r Er Rd) as (q & Eq & Rq). exists q. split; [exact Eq|]. econstructor 2; [exact Rq|]. apply step_work_err. assumption.
    - destruct (IH r0 r Er Rd) as (q & Eq & Rq). exists q. split; [exact Eq|]. econstructor 2; [exact Rq|]. apply step_status_item.
    - destruct (IH r0 r Er Rd) as (q & Eq & Rq). exists q. split; [exact Eq|]. econstructor 2; [exact Rq|]. apply step_status_stop.
  Qed.
  Lemma step_rest s s' x : step s s' -> ~ reading s -> rest s' = rest s /\ ~ reading s' /\ step (set_rest s x) (set_rest s' x).
  Proof.
    intros S N. inversion S; subst; unfold reading, set_rest in *; cbn [main rest inq outq statusq workers status_done outputs] in *; try (exfalso; apply N; exact I);
      (split; [reflexivity|]); (split; [tauto || exact N|]); econstructor; eassumption.
  Qed.
  Lemma run_rest n s s' x : run fails jobs n s s' -> ~ reading s -> ~ reading s' /\ rest s' = rest s /\ run fails jobs n (set_rest s x) (set_rest s' x).
  Proof.
    induction 1 as [s|n s s1 s2 S R IH]; intros N; [split; [exact N|split; [reflexivity|constructor]]|]. destruct (step_rest s s1 x S N) as (E1 & N1 & S1).
    destruct (IH N1) as (N2 & E2 & R2). split; [exact N2|]. split; [congruence|]. econstructor 2; eassumption.
  Qed.
  Lemma stop_rest s x : ~ reading s -> (forall s', ~ step s s') -> forall s', ~ step (set_rest s x) s'.
  Proof.
    intros N H0 s' S. destruct (step_rest (set_rest s x) s' (rest s) S N) as (_ & _ & S1). apply (H0 (set_rest s' (rest s))).
    replace (set_rest (set_rest s x) (rest s)) with s in S1 by (destruct s; reflexivity). exact S1.
  Qed.
  Lemma reachable_run lines s : reachable lines s -> exists n, run fails jobs n (init jobs lines) s.
  Proof. induction 1 as [|s s' R (n & X) S]; [exists 0; constructor|]. exists (n + 1). eapply (run_app fails jobs); [exact X|]. apply (run_one fails jobs), S. Qed.
  (** An interrupted run is one whose input ends there. *)
  Lemma interrupted lines s s1 : reachable lines s -> interrupt jobs s s1 ->
    exists p lost, lines = p ++ lost ++ rest s1 /\ List.length lost <= 1 /\ ~ reading s1 /\ reachable p (set_rest s1 []).
  Proof.
    intros R J. inversion J; subst; cbn [rest].
    - destruct (shorter lines _ R [] r eq_refl I) as (p & Ep & Rp). exists p, []. split; [exact Ep|]. split; [cbn; lia|]. split; [tauto|].
      econstructor 2; [exact Rp|]. apply step_eof.
    - destruct (shorter lines _ R [] (l :: r) eq_refl I) as (p & Ep & Rp). exists p, [l]. split; [exact Ep|]. split; [cbn; lia|]. split; [tauto|].
      econstructor 2; [exact Rp|]. apply step_eof.
    - destruct (shorter lines _ R [] r eq_refl I) as (p & Ep & Rp). exists p, []. split; [exact Ep|]. split; [cbn; lia|]. split; [tauto|].
      econstructor 2; [econstructor 2; [exact Rp|apply step_go_on]|]. apply step_eof.
  Qed.

  (** * C106 *)
  (** The main process is interrupted while reading: the program still ends, and if it succeeds its output is
      that of the lines given to workers, a prefix of the input. *)
  Theorem C106_main_only lines s s1 n s2 : 0 < jobs -> reachable lines s -> interrupt jobs s s1 -> run fails jobs n s1 s2 ->
    exists p lost, lines = p ++ lost ++ rest s1 /\ List.length lost <= 1 /\
      n <= 6 * List.length p + 5 * jobs + 7 /\ main s2 <> MAssert /\
      (main s2 = MDone -> Permutation p (concat (outputs s2)) /\ List.length (outputs s2) = jobs /\ Forall (fun l => fails l = None) p) /\
      (Forall (fun l => fails l = None) p -> (forall s', ~ step s2 s') -> main s2 = MDone) /\
      (forall e, main s2 = MRaised e -> exists l, In l p /\ fails l = Some e).
  Proof.
    intros Hj R J X. destruct (interrupted lines s s1 R J) as (p & lost & Ep & Ll & N1 & R1). exists p, lost. split; [exact Ep|]. split; [exact Ll|].
    destruct (run_rest n s1 s2 [] X N1) as (N2 & _ & X2). destruct (reachable_run p _ R1) as (m & Xm).
    pose proof (run_app fails jobs _ _ _ _ _ Xm X2) as Xa. pose proof (run_reachable fails jobs p n _ _ R1 X2) as R2.
    pose proof (C26_bounded fails jobs p _ _ Xa) as B. split; [lia|]. split; [exact (C26_assert_never fails jobs p _ R2)|]. split; [|split].
    - intros Em. destruct (C25_each_line_once fails jobs p _ Hj R2 Em) as (P & Lo & G). auto.
    - intros G St. exact (proj1 (C26_no_deadlock fails jobs p _ _ G Xa (stop_rest s2 [] N2 St))).
    - intros e Em. exact (C27_right_exception fails jobs p _ e R2 Em).
  Qed.

  (** Nothing was sent while reading, unless a line failed. *)
  Definition calm (s : state) : Prop := outq s = [] /\ Forall (fun w => match w with WIdle _ | WStatus _ => True | _ => False end) (workers s) /\
    Forall (fun x => match x with Some l => fails l = None | None => False end) (inq s).
  Lemma calm_step lines s : Forall (fun l => fails l = None) lines -> reachable lines s -> reading s -> calm s /\ Forall (fun l => fails l = None) (rest s).
  Proof.
    intros G. induction 1 as [|s s' R IH S]; intros Rd.
    - split; [|exact G]. split; [reflexivity|]. split; [|constructor]. cbn [init workers]. clear. induction jobs; constructor; auto.
    - inversion S; subst; try (destruct Rd; fail); (assert (HH := IH Rd) || assert (HH := IH I)); destruct HH as ((Eo & Fw & Fi) & Fr);
        unfold calm; cbn [main rest inq outq statusq workers status_done outputs] in *.
      + inversion Fr; subst. split; [|assumption]. split; [first [exact Eo|reflexivity]|]. split; [exact Fw|]. apply Forall_app. split; [exact Fi|]. constructor; [assumption|constructor].
      + split; [split; [exact Eo|split; [exact Fw|exact Fi]]|exact Fr].
      + inversion Fi; subst. split; [|exact Fr]. split; [first [exact Eo|reflexivity]|]. split; [|assumption]. apply Forall_app in Fw as [F1 F2]. inversion F2; subst. apply Forall_app. split; [exact F1|]. constructor; [exact I|assumption].
      + inversion Fi; subst. congruence.
      + inversion Fi; subst. contradiction.
      + split; [|exact Fr]. split; [first [exact Eo|reflexivity]|]. split; [|exact Fi]. apply Forall_app in Fw as [F1 F2]. inversion F2; subst. apply Forall_app. split; [exact F1|]. constructor; [exact I|assumption].
      + apply Forall_app in Fw as [_ F2]. inversion F2; subst. contradiction.
      + apply Forall_app in Fw as [_ F2]. inversion F2; subst. contradiction.
      + split; [split; [exact Eo|split; [exact Fw|exact Fi]]|exact Fr].
      + split; [split; [exact Eo|split; [exact Fw|exact Fi]]|exact Fr].
  Qed.
  (** The main process waits for replies of dead workers. *)
  Definition waiting (s : state) : Prop := (main s = MExit jobs \/ main s = MGet (jobs - 1)) /\ outq s = [] /\ Forall (fun w => w = WDead) (workers s) /\ status_done s = true.
  Lemma waiting_step s s' : 0 < jobs -> waiting s -> step s s' -> waiting s' /\ main s = MExit jobs /\ main s' = MGet (jobs - 1).
  Proof.
    intros Hj (M & O & D & T) S. inversion S; subst; unfold waiting in *; cbn [main rest inq outq statusq workers status_done outputs] in *;
      try (destruct M as [M|M]; discriminate M); try discriminate T; try (apply Forall_app in D as [_ D]; inversion D; discriminate).
    - destruct M as [M|M]; [|discriminate M]. injection M as M. assert (K : k = jobs - 1) by lia. split; [split; [right; rewrite K; reflexivity|auto]|]. split; [rewrite M; reflexivity|rewrite K; reflexivity].
    - destruct q1; discriminate O.
    - destruct q1; discriminate O.
    - destruct M as [M|M]; [injection M as M; lia|discriminate M].
    - destruct M as [M|M]; [injection M as M; lia|discriminate M].
  Qed.
  Lemma waiting_run n s s' : 0 < jobs -> waiting s -> run fails jobs n s s' -> waiting s'.
  Proof. intros Hj W X. induction X as [s|n s s1 s2 S X IH]; [exact W|]. apply IH. eapply waiting_step; eassumption. Qed.
  (** All processes are interrupted: if no line failed before, the program never ends, however it goes on. *)
  Theorem C106_all_hangs lines s s1 n s2 : 0 < jobs -> Forall (fun l => fails l = None) lines -> reachable lines s -> interrupt_all jobs s s1 ->
    run fails jobs n s1 s2 -> ~ finished s2 /\ n <= 1.
  Proof.
    intros Hj G R J X. inversion J as [s' r iq oq sq ws sd out K]; subst.
    assert (C : oq = []).
    { inversion K; subst; destruct (calm_step lines _ G R I) as ((Eo & _ & _) & _); exact Eo. }
    assert (W : waiting (mkState (MExit jobs) r iq oq sq (map (fun _ => WDead) ws) true out)).
    { split; [left; reflexivity|]. split; [exact C|]. split; [|reflexivity]. clear. induction ws; constructor; auto. }
    split.
    - destruct (waiting_run n _ _ Hj W X) as ([M|M] & _); unfold finished; rewrite M; tauto.
    - inversion X as [|n1 a b c S1 X1]; subst; [lia|]. destruct (waiting_step _ _ Hj W S1) as (W1 & _ & M1).
      inversion X1 as [|n2 a' b' c' S2 X2]; subst; [lia|]. destruct (waiting_step _ _ Hj W1 S2) as (_ & M2 & _). congruence.
  Qed.
End Intr.

(** Pressing control-C hangs the program, whatever the number of jobs. *)
Theorem C106_all_ends_refuted : forall jobs, 0 < jobs -> exists (lines : list nat) s s1 n s2, Forall (fun _ => @None unit = None) lines /\
  reachable (fun _ => @None unit) jobs lines s /\ interrupt_all jobs s s1 /\ run (fun _ => @None unit) jobs n s1 s2 /\ stuck (fun _ => @None unit) jobs s2.
Proof.
  intros jobs Hj. assert (J : interrupt_all (E := unit) jobs (init jobs [0]) (mkState (MExit jobs) [0] [] [] [] (map (fun _ => WDead) (repeat (@WIdle nat unit []) jobs)) true [])).
  { apply all_read with (sd := false). apply int_read. }
  assert (G : Forall (fun _ : nat => @None unit = None) [0]) by (repeat constructor).
  pose proof (reach_init (fun _ : nat => @None unit) jobs [0]) as R. exists [0], (init jobs [0]). eexists _, 1, _. split; [exact G|]. split; [exact R|]. split; [exact J|].
  assert (X : run (fun _ : nat => @None unit) jobs 1 (mkState (MExit jobs) [0] [] [] [] (map (fun _ => WDead) (repeat (@WIdle nat unit []) jobs)) true [])
    (mkState (MGet (jobs - 1)) [0] [None] [] [] (map (fun _ => WDead) (repeat (@WIdle nat unit []) jobs)) true [])).
  { apply run_one. destruct jobs as [|k]; [lia|]. replace (S k - 1) with k by lia. apply (@step_put_none nat unit (fun _ => None) (S k) k [0] []). reflexivity. }
  split; [exact X|]. split; [exact (proj1 (C106_all_hangs _ jobs [0] _ _ _ _ Hj G R J X))|]. intros s' S.
  pose proof (proj2 (C106_all_hangs _ jobs [0] _ _ _ _ Hj G R J (run_app _ _ _ _ _ _ _ X (run_one _ _ _ _ S)))) as B. lia.
Qed.
(** Success is reported although the input was not read to its end. *)
Theorem C106_complete_refuted : exists (lines : list nat) s s1 n s2, reachable (fun _ => @None unit) 1 lines s /\ interrupt 1 s s1 /\
  run (fun _ => @None unit) 1 n s1 s2 /\ main s2 = MDone /\ ~ Permutation lines (concat (outputs s2)).
Proof.
  exists [1]. eexists _, _, 9, _. split; [constructor|]. split; [apply int_read|]. cbn [repeat]. split.
  - econstructor 2; [apply step_put_none; reflexivity|].
    econstructor 2; [apply (step_work_end _ _ _ _ _ _ _ [] _ [])|]. econstructor 2; [apply (step_work_out _ _ _ _ _ _ _ [] _ []); reflexivity|].
    econstructor 2; [apply (step_get_result _ _ _ _ _ _ [] [])|]. econstructor 2; [apply step_assert_ok|]. econstructor 2; [apply step_status_end; reflexivity|].
    econstructor 2; [apply (step_status_stop _ _ _ _ _ _ [] [])|]. econstructor 2; [apply step_join_status|]. econstructor 2; [apply step_join_workers; repeat constructor|].
    constructor.
  - split; [reflexivity|]. cbn. intros P. apply Permutation_length in P. discriminate P.
Qed.
(** Hypotheses of C106_main_only: two lines, interrupted after the first, one result *)
Example C106_main_only_example : exists s s1 : state nat unit, reachable (fun _ => None) 2 [1; 2] s /\ interrupt 2 s s1 /\ rest s1 = [2] /\ inq s1 = [Some 1].
Proof. eexists _, _. split; [econstructor 2; [constructor|unfold init; apply step_put; reflexivity]|]. split; [apply int_check|]. split; reflexivity. Qed.
Print Assumptions C106_main_only.
Print Assumptions C106_all_hangs.
Print Assumptions C106_all_ends_refuted.
Print Assumptions C106_complete_refuted.
