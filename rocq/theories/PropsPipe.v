(** Properties C25-C27 (lulua/text.py: write, writeWorker, statusWorker). *)
From Coq Require Import Permutation.
From Verif Require Import Base LayoutModel LayoutSpec LayoutProofs DataLayouts DataFingermap ShippedProofs WriterModel WriterProofs
  StatsModel StatsSpec MergeProofs StatsAll TextModel PipeModel PipeSpec PipeProofs PipeStats PropsLayout PropsWriter PropsStats.
Open Scope list_scope.

Section Runs.
  Context {L E : Type} `{EqDec L}.
  Variable fails : L -> option E.
  Variable jobs : nat.
  Notation reachable := (reachable fails jobs).

  Lemma run_reachable lines n s s' : reachable lines s -> run fails jobs n s s' -> reachable lines s'.
  Proof. intros R X. revert R. induction X as [|n s s1 s2 Hs X IH]; intros R; [exact R|]. apply IH. econstructor 2; eassumption. Qed.
  Lemma run_app n m s s1 s2 : run fails jobs n s s1 -> run fails jobs m s1 s2 -> run fails jobs (n + m) s s2.
  Proof. induction 1 as [|n s s' s'' Hs X IH]; intros Y; [exact Y|]. cbn. econstructor 2; [exact Hs|]. apply IH, Y. Qed.
  Lemma run_one s s' : step fails jobs s s' -> run fails jobs 1 s s'.
  Proof. intros Hs. econstructor 2; [exact Hs|constructor]. Qed.

  Definition failing (l : L) : bool := match fails l with Some _ => true | None => false end.
  Lemma stuck_counts lines s : reachable lines s -> stuck fails jobs s ->
    jobs <= length (filter failing lines) /\ 3 * jobs <= length lines.
  Proof.
    intros R St. destruct (@stuck_state L E _ fails jobs lines s R St) as (S1 & S2 & S3 & S4 & (ls & S5 & S6) & S7).
    apply reachable_Inv in R. destruct St as [Hf _]. apply not_finished_inv in R; [|exact Hf].
    destruct R as (I1 & I2 & I3 & I4 & _ & I6 & I7 & I8 & I9 & I10 & I11 & I12 & I13). split.
    - pose proof (I7 (fun l => if failing l then 1 else 0)) as G.
      assert (Hl : forall l, nsum (fun l => if failing l then 1 else 0) l = length (filter failing l)).
      { induction l as [|x l IH]; [reflexivity|]. rewrite nsum_cons, IH. cbn [filter]. destruct (failing x); reflexivity. }
      rewrite Hl in G. enough (nsum isExn (outq s) <= nsum (fun r : reply L E => nsum (fun l => if failing l then 1 else 0) (racc r)) (outq s)) by lia.
      apply nsum_le. intros [a|e a] Hr; cbn [isExn]; [lia|]. rewrite Forall_forall in I12. specialize (I12 _ Hr). cbn in I12. destruct I12 as (l & Hi & El).
      cbn [racc]. apply (nsum_In (fun l => if failing l then 1 else 0)) in Hi. unfold failing at 1 in Hi. rewrite El in Hi. exact Hi.
    - pose proof (I7 (fun _ => 1)) as G. assert (Hl : forall l : list L, nsum (fun _ => 1) l = length l).
      { induction l as [|x l IH]; [reflexivity|]. rewrite nsum_cons, IH. reflexivity. }
      rewrite Hl in G. rewrite S5 in G. replace (map Some ls) with (map (@Some L) ls ++ repeat None 0) in G by apply app_nil_r. rewrite lines_shape, !Hl in G.
      enough (nsum isExn (outq s) <= nsum (fun r : reply L E => nsum (fun _ => 1) (racc r)) (outq s)) by lia.
      apply nsum_le. intros [a|e a] Hr; cbn [isExn]; [lia|]. rewrite Forall_forall in I12. specialize (I12 _ Hr). cbn in I12. destruct I12 as (l & Hi & El).
      cbn [racc]. rewrite Hl. destruct a; [destruct Hi|cbn; lia].
  Qed.

  (** * C25: schedule independence *)
  Theorem C25_each_line_once lines s : 0 < jobs -> reachable lines s -> main s = MDone ->
    Permutation lines (concat (outputs s)) /\ length (outputs s) = jobs /\ Forall (fun l => fails l = None) lines.
  Proof.
    intros Hj R Em. destruct (@ended_state L E _ fails jobs lines s R) as (_ & _ & _ & Hl & _ & Hg & Hp); [rewrite Em; exact I|].
    destruct (Hp Hj) as [_ P]. split; [exact P|]. split; [exact Hl|]. eapply Permutation_Forall; [symmetry; exact P|].
    clear -Hg. induction Hg; cbn; [constructor|]. apply Forall_app. split; assumption.
  Qed.

  (** * C26: termination *)
  Theorem C26_bounded lines n s : run fails jobs n (init jobs lines) s -> n <= 6 * length lines + 5 * jobs + 7.
  Proof.
    intros X. apply run_bounded in X. unfold weight, init in X. cbn [main rest inq statusq workers m_weight] in X.
    rewrite nsum_repeat in X. cbn [w_weight length nsum fold_right] in X. lia.
  Qed.
  Theorem C26_no_deadlock lines n s : Forall (fun l => fails l = None) lines ->
    run fails jobs n (init jobs lines) s -> (forall s', ~ step fails jobs s s') ->
    main s = MDone /\ Forall (fun w => w = WDead) (workers s) /\ status_done s = true /\ length (outputs s) = jobs /\ outq s = [] /\ rest s = [] /\
    (0 < jobs -> inq s = []).
  Proof.
    intros Hg X Hn. assert (R : reachable lines s) by (eapply run_reachable; [constructor|exact X]).
    assert (Hf : finished s).
    { destruct (main s) eqn:Em; unfold finished; rewrite ?Em; try exact I;
      (exfalso; assert (St : stuck fails jobs s) by (split; [unfold finished; rewrite Em; tauto|exact Hn]);
       destruct (@stuck_counts lines s R St) as [Hc _]; destruct (@stuck_state L E _ fails jobs lines s R St) as (_ & _ & _ & _ & _ & Hj);
       assert (Hz : filter failing lines = []) by
        (clear -Hg; induction Hg as [|l ls Hl Hg IH]; cbn [filter]; [reflexivity|]; unfold failing at 1; rewrite Hl; exact IH);
       rewrite Hz in Hc; cbn in Hc; lia). }
    assert (Em : main s = MDone).
    { unfold finished in Hf. destruct (main s) eqn:Em; try tauto.
      - destruct (@raised_failed L E _ fails jobs lines s e R Em) as (l & Hl & El). rewrite Forall_forall in Hg. rewrite (Hg _ Hl) in El. discriminate.
      - exfalso. exact (@assert_never L E _ fails jobs lines s R Em). }
    destruct (@ended_state L E _ fails jobs lines s R) as (A & B & C & D & _ & _ & P); [rewrite Em; exact I|].
    split; [exact Em|]. split; [exact A|]. split; [|repeat split; auto; apply P; assumption].
    apply reachable_Inv in R. unfold Inv in R. rewrite Em in R. destruct R as (_ & _ & _ & _ & _ & _ & _ & _ & _ & I10 & _). apply I10. auto.
  Qed.
  (** The internal assertion never fails. *)
  Theorem C26_assert_never lines s : reachable lines s -> main s <> MAssert.
  Proof. apply assert_never. Qed.

  (** * C27: failures *)
  Theorem C27_no_silent_loss lines s : 0 < jobs -> reachable lines s -> main s = MDone -> Forall (fun l => fails l = None) lines.
  Proof. intros Hj R Em. apply (C25_each_line_once lines s Hj R Em). Qed.
  Theorem C27_right_exception lines s e : reachable lines s -> main s = MRaised e -> exists l, In l lines /\ fails l = Some e.
  Proof. apply raised_failed. Qed.
  (** Fewer failing lines than workers, or a short input: reported. *)
  Theorem C27_reported_partial lines n s l : 0 < jobs -> In l lines -> fails l <> None ->
    length (filter failing lines) < jobs \/ length lines < 3 * jobs ->
    run fails jobs n (init jobs lines) s -> (forall s', ~ step fails jobs s s') ->
    exists e, main s = MRaised e.
  Proof.
    intros Hj Hl Hf Hc X Hn. assert (R : reachable lines s) by (eapply run_reachable; [constructor|exact X]).
    assert (G : ~ stuck fails jobs s) by (intros St; destruct (@stuck_counts lines s R St); lia).
    destruct (main s) eqn:Em; try (exfalso; apply G; split; [unfold finished; rewrite Em; tauto|exact Hn]).
    - exfalso. pose proof (C27_no_silent_loss lines s Hj R Em) as F. rewrite Forall_forall in F. exact (Hf (F _ Hl)).
    - eauto.
    - exfalso. exact (@assert_never L E _ fails jobs lines s R Em).
  Qed.
  (** The only possible deadlock. *)
  Theorem C27_deadlock_shape lines s : reachable lines s -> stuck fails jobs s ->
    Forall (fun w => w = WDead) (workers s) /\ Forall is_exn (outq s) /\ length (outq s) = jobs /\ outputs s = [] /\
    exists ls, inq s = map Some ls /\ 2 * jobs <= length ls.
  Proof.
    intros R St. destruct (@stuck_state L E _ fails jobs lines s R St) as (A & B & C & D & G & _). repeat split; auto.
    pose proof (replies (outq s)) as Hr. assert (Hz : nsum isRes (outq s) = 0) by lia. clear -Hz. induction (outq s) as [|x q IH]; constructor.
    - rewrite nsum_cons in Hz. destruct x; cbn in *; [lia|exact I].
    - apply IH. rewrite nsum_cons in Hz. lia.
  Qed.

  (** ... and it does occur, for any number of jobs. *)
  Variable l0 : L.
  Variable e0 : E.
  Hypothesis F0 : fails l0 = Some e0.
  Hypothesis J0 : 0 < jobs.
  Notation run := (run fails jobs).
  Lemma full_false {A} cap (q : list A) : length q < cap -> full cap q = false.
  Proof. intros Hl. unfold full. apply andb_false_iff. right. apply Nat.leb_gt. exact Hl. Qed.
  Lemma full_true {A} cap (q : list A) : 0 < cap -> cap <= length q -> full cap q = true.
  Proof. intros Hc Hl. unfold full. apply andb_true_iff. split; [apply negb_true_iff, Nat.eqb_neq; lia|apply Nat.leb_le, Hl]. Qed.
  Lemma repeat_snoc {A} (x : A) n : repeat x n ++ [x] = repeat x (S n).
  Proof. induction n; cbn; [reflexivity|]. f_equal. exact IHn. Qed.
  Lemma all_err k : k <= jobs -> forall r, exists n, run n (mkState MRead (repeat l0 k ++ r) [] [] [] (repeat (WErr e0 [l0]) (jobs - k) ++ repeat (WIdle []) k) false [])
    (mkState MRead r [] [] [] (repeat (WErr e0 [l0]) jobs) false []).
  Proof.
    induction k as [|k IH]; intros Hk r; cbn [repeat app].
    - exists 0. rewrite Nat.sub_0_r, app_nil_r. constructor.
    - destruct (IH ltac:(lia) r) as [n Hn]. eexists. econstructor 2; [apply step_put, full_false; cbn; lia|].
      econstructor 2; [apply step_go_on|]. econstructor 2; [cbn [app]; apply step_work_fail, F0|].
      replace (repeat (WErr e0 [l0]) (jobs - k)) with (repeat (WErr e0 [l0]) (jobs - S k) ++ [WErr e0 [l0]]) in Hn
        by (rewrite repeat_snoc; f_equal; lia). rewrite <- app_assoc in Hn. exact Hn.
  Qed.
  Lemma fill_inq k ws : k <= 2 * jobs -> exists n, run n (mkState MRead (repeat l0 k) (repeat (Some l0) (2 * jobs - k)) [] [] ws false [])
    (mkState MRead [] (repeat (Some l0) (2 * jobs)) [] [] ws false []).
  Proof.
    induction k as [|k IH]; intros Hk; cbn [repeat].
    - exists 0. rewrite Nat.sub_0_r. constructor.
    - destruct (IH ltac:(lia)) as [n Hn]. eexists. econstructor 2; [apply step_put, full_false; rewrite repeat_length; lia|].
      rewrite repeat_snoc. replace (S (2 * jobs - S k)) with (2 * jobs - k) by lia. econstructor 2; [apply step_go_on|]. exact Hn.
  Qed.
  Lemma all_die k iq m : k <= jobs -> exists n, run n (mkState m [] iq (repeat (RExn e0 [l0]) (jobs - k)) [] (repeat WDead (jobs - k) ++ repeat (WErr e0 [l0]) k) false [])
    (mkState m [] iq (repeat (RExn e0 [l0]) jobs) [] (repeat WDead jobs) false []).
  Proof.
    induction k as [|k IH]; intros Hk; cbn [repeat app].
    - exists 0. rewrite Nat.sub_0_r, app_nil_r. constructor.
    - destruct (IH ltac:(lia)) as [n Hn]. eexists. econstructor 2; [apply step_work_err, full_false; rewrite repeat_length; lia|].
      rewrite repeat_snoc. replace (S (jobs - S k)) with (jobs - k) by lia.
      replace (repeat WDead (jobs - k)) with (repeat (@WDead L E) (jobs - S k) ++ [WDead]) in Hn by (rewrite repeat_snoc; f_equal; lia).
      rewrite <- app_assoc in Hn. exact Hn.
  Qed.
  Lemma deadlock : exists n s, run n (init jobs (repeat l0 (3 * jobs))) s /\ stuck fails jobs s.
  Proof.
    destruct (all_err jobs (le_n _) (repeat l0 (2 * jobs))) as [n1 R1]. rewrite Nat.sub_diag in R1. cbn [repeat app] in R1. rewrite <- repeat_app in R1.
    destruct (fill_inq (2 * jobs) (repeat (WErr e0 [l0]) jobs) (le_n _)) as [n2 R2]. rewrite Nat.sub_diag in R2.
    destruct (all_die jobs (repeat (Some l0) (2 * jobs)) (MExit jobs) (le_n _)) as [n3 R3]. rewrite Nat.sub_diag in R3.
    pose proof (run_app _ _ _ _ _ R1 R2) as R12.
    pose proof (run_app _ _ _ _ _ R12 (run_one _ _ (@step_eof _ _ fails jobs _ _ _ _ _ _))) as R.
    eexists _, _. split.
    - unfold init. replace (3 * jobs) with (jobs + 2 * jobs) by lia. exact (run_app _ _ _ _ _ R R3).
    - split; [intros []|]. intros s' X.
      assert (Hw : forall w, In w (repeat (@WDead L E) jobs) -> w = WDead) by (intros w Hw; apply repeat_spec in Hw; exact Hw).
      revert X. generalize (repeat (RExn e0 [l0]) jobs). intros oq X.
      assert (Hf : full (jobs * 2) (repeat (Some l0) (2 * jobs)) = true) by (apply full_true; [lia|rewrite repeat_length; lia]).
      remember (repeat (@WDead L E) jobs) as wd eqn:Ewd. clear Ewd. remember (repeat (Some l0) (2 * jobs)) as iqd eqn:Eiq. clear Eiq.
      assert (Hcut : forall w1 w w2, wd = w1 ++ w :: w2 -> w = WDead) by (intros w1 w w2 E1; apply Hw; rewrite E1; apply in_elt).
      inversion X;
        try (match goal with E1 : ?a ++ ?w :: ?b = wd |- _ => symmetry in E1; apply Hcut in E1; discriminate end);
        try (match goal with E1 : wd = ?a ++ ?w :: ?b |- _ => apply Hcut in E1; discriminate end);
        try (match goal with E1 : ?a ++ _ :: _ = [] |- _ => destruct a; discriminate end);
        try (match goal with E1 : [] = ?a ++ _ :: _ |- _ => destruct a; discriminate end); try lia; try congruence.
  Qed.
End Runs.

Theorem C27_reported_refuted : forall jobs, 0 < jobs ->
  exists (lines : list nat) n s, run (fun _ => Some tt) jobs n (init jobs lines) s /\ stuck (fun _ => Some tt) jobs s.
Proof. intros jobs Hj. destruct (@deadlock nat unit (fun _ => Some tt) jobs 0 tt eq_refl Hj) as (n & s & R & St). exists (repeat 0 (3 * jobs)), n, s. auto. Qed.

(** The number of jobs must be positive: lulua-write -j 0 reads everything and
    reports success without processing a line. *)
Theorem C25_needs_jobs : exists (lines : list nat) s n, lines <> [] /\ run (fun _ => @None unit) 0 n (init 0 lines) s /\ main s = MDone /\ outputs s = [].
Proof.
  exists [1]. eexists. exists 8. split; [discriminate|]. split.
  - unfold init. cbn [repeat]. econstructor 2; [apply step_put; reflexivity|]. econstructor 2; [apply step_go_on|]. econstructor 2; [apply step_eof|].
    econstructor 2; [apply step_assert_ok|]. econstructor 2; [apply step_status_end; reflexivity|].
    econstructor 2; [apply (step_status_stop _ _ _ _ _ _ [] [])|]. econstructor 2; [apply step_join_status|]. econstructor 2; [apply step_join_workers; constructor|].
    constructor.
  - split; reflexivity.
Qed.
(** Progress messages can be overtaken by the final message and stay in the
    status queue; nothing depends on them. *)
Theorem C26_status_leftover : exists (lines : list nat) s n, run (fun _ => @None unit) 1 n (init 1 lines) s /\ main s = MDone /\ statusq s <> [].
Proof.
  exists [1]. eexists. eexists. split.
  - unfold init. cbn [repeat]. econstructor 2; [apply step_put; reflexivity|]. econstructor 2; [apply step_go_on|].
    econstructor 2; [apply (step_work _ _ _ _ _ _ _ _ [] _ []); reflexivity|]. econstructor 2; [apply (step_work_status _ _ _ _ _ _ _ [] _ []); reflexivity|].
    econstructor 2; [apply step_eof|]. econstructor 2; [apply step_put_none; reflexivity|].
    econstructor 2; [apply (step_work_end _ _ _ _ _ _ _ [] _ [])|]. econstructor 2; [apply (step_work_out _ _ _ _ _ _ _ [] _ []); reflexivity|].
    econstructor 2; [apply (step_get_result _ _ _ _ _ _ [] [])|]. econstructor 2; [apply step_assert_ok|]. econstructor 2; [apply step_status_end; reflexivity|].
    econstructor 2; [apply (step_status_stop _ _ _ _ _ _ [SItem] [])|]. econstructor 2; [apply step_join_status|].
    econstructor 2; [apply step_join_workers; repeat constructor|]. constructor.
  - split; [reflexivity|discriminate].
Qed.

(** C25, statistics: what lulua-write dumps, merged with lulua-analyze combine,
    is the sum over all lines and all texts of each line, for every number of
    jobs and every schedule. *)
Section Stats.
  Context {L : Type} `{EqDec L}.
  Variable texts : L -> res (list text).
  Variable letter : N -> bool.
  Variable g : generic_data.
  Hypothesis Hg : In g all_layouts.
  Notation lay := (layout_new (shipped_layers g)).
  Notation fails := (item_fails defaultFingermap letter lay kb_names texts).
  (** Expected value of a counter for one text. *)
  Definition text_counter (t : text) (x : counter) : option Z :=
    nonzero (expected defaultFingermap letter lay spaces (map ev_obj (fst (fst (type_text defaultFingermap lay None (prepare t))))) x).
  Lemma shipped_text t : exists s, text_stats defaultFingermap letter lay kb_names t = Ok s /\ forall x, recorded s x = text_counter t x.
  Proof.
    destruct (C17_typed g letter None (prepare t) Hg) as (s0 & s & E0 & Es & R). cbn zeta in *. exists s. split; [|exact R].
    unfold text_stats. rewrite E0. cbn [bind].
    destruct (shipped_facts _ Hg) as (A & B & C & D).
    destruct (bufferLen_attained (shipped_layers g)) as [Eb|(y & Hy & _)].
    - rewrite type_null in Es |- * by exact Eb. exact Es.
    - destruct (@type_coverage defaultFingermap text read_full (fun t => t) (shipped_layers g)) with (fuel := S (length (prepare t))) (r := prepare t) (buf := @nil N) (last := @None comb)
        as (es & l & E & _); eauto using full_reads_file, read_full_ok; [cbn; lia|]. unfold type_text in *. rewrite E in *. exact Es.
  Qed.
  Lemma shipped_texts ts : exists ss, mapM (text_stats defaultFingermap letter lay kb_names) ts = Ok ss /\ forall x, osum (fun s => recorded s x) ss = osum (fun t => text_counter t x) ts.
  Proof.
    induction ts as [|t ts (ss & E & R)]; [exists []; split; reflexivity|]. destruct (shipped_text t) as (s & Es & Rs).
    exists (s :: ss). cbn [mapM]. rewrite Es. cbn [bind]. rewrite E. cbn [bind]. split; [reflexivity|]. intros x. rewrite !osum_cons, R, Rs. reflexivity.
  Qed.
  (** Only filters can fail. *)
  Theorem C27_only_filters l e : fails l = Some e <-> texts l = Raise e.
  Proof.
    unfold item_fails. destruct (texts l) as [ts|e']; cbn [bind]; [|split; congruence].
    destruct (shipped_texts ts) as (ss & -> & _). split; discriminate.
  Qed.
  Theorem C25_statistics jobs lines s : 0 < jobs -> reachable fails jobs lines s -> main s = MDone ->
    exists objs c, mapM (work defaultFingermap letter lay kb_names texts) (filter (has_texts texts) (outputs s)) = Ok objs /\
      combine_stats kb_names objs = Ok c /\
      forall x, is_finger x = false ->
        recorded c x = osum (fun l => match texts l with Ok ts => osum (fun t => text_counter t x) ts | Raise _ => None end) lines.
  Proof.
    intros Hj R Em. destruct (@C25_each_line_once L exn _ fails jobs lines s Hj R Em) as (P & _ & Hl).
    assert (Hgood : Forall (Forall (fun l => fails l = None)) (outputs s)).
    { destruct (@ended_state L exn _ fails jobs lines s R) as (_ & _ & _ & _ & _ & G & _); [rewrite Em; exact I|exact G]. }
    destruct (C17_typed g letter None [] Hg) as (c0 & _ & E0 & _).
    destruct (@dump_ok L defaultFingermap letter lay kb_names texts c0 (outputs s) E0 Hgood) as (objs & c & Eo & Ec). exists objs, c.
    split; [exact Eo|]. split; [exact Ec|]. intros x Hx.
    rewrite (@dump_combined L defaultFingermap letter lay kb_names texts (outputs s) objs c x Hgood Eo Ec Hx).
    rewrite <- (osum_Permutation _ P). clear -Hg. induction lines as [|l lines IH]; [reflexivity|]. rewrite !osum_cons, IH. f_equal.
    unfold item_stats. destruct (texts l) as [ts|]; cbn [bind]; [|reflexivity]. destruct (shipped_texts ts) as (ss & -> & R). apply R.
  Qed.
End Stats.

(** Runs exist: one worker, one line, with the executable side of the model. *)
Example C25_example : exists s n, run (fun _ : nat => @None unit) 1 n (init 1 [7]) s /\ main s = MDone /\ outputs s = [[7]].
Proof.
  eexists. eexists. split.
  - unfold init. cbn [repeat]. econstructor 2; [apply step_put; reflexivity|]. econstructor 2; [apply step_go_on|].
    econstructor 2; [apply (step_work _ _ _ _ _ _ _ _ [] _ []); reflexivity|]. econstructor 2; [apply (step_work_status _ _ _ _ _ _ _ [] _ []); reflexivity|].
    econstructor 2; [apply (step_status_item _ _ _ _ _ _ [] [])|].
    econstructor 2; [apply step_eof|]. econstructor 2; [apply step_put_none; reflexivity|].
    econstructor 2; [apply (step_work_end _ _ _ _ _ _ _ [] _ [])|]. econstructor 2; [apply (step_work_out _ _ _ _ _ _ _ [] _ []); reflexivity|].
    econstructor 2; [apply (step_get_result _ _ _ _ _ _ [] [])|]. econstructor 2; [apply step_assert_ok|]. econstructor 2; [apply step_status_end; reflexivity|].
    econstructor 2; [apply (step_status_stop _ _ _ _ _ _ [] [])|]. econstructor 2; [apply step_join_status|].
    econstructor 2; [apply step_join_workers; repeat constructor|]. constructor.
  - split; reflexivity.
Qed.
Example C27_example : exists s n, run (fun l => if Nat.eqb l 0 then Some tt else None) 2 n (init 2 [0; 1]) s /\ main s = MRaised tt.
Proof.
  eexists. eexists. split.
  - unfold init. cbn [repeat]. econstructor 2; [apply step_put; reflexivity|]. econstructor 2; [apply step_go_on|].
    econstructor 2; [eapply (step_work_fail _ _ _ tt _ _ _ _ _ [] _ [_]); reflexivity|]. econstructor 2; [apply (step_work_err _ _ _ _ _ _ _ [] _ _ [_]); reflexivity|].
    econstructor 2; [apply step_put; reflexivity|]. econstructor 2; [apply step_break; discriminate|]. econstructor 2; [apply step_put_none; reflexivity|].
    econstructor 2; [apply (step_get_exn _ _ _ _ _ _ _ [] [])|]. constructor.
  - reflexivity.
Qed.
Print Assumptions C25_each_line_once.
Print Assumptions C26_bounded.
Print Assumptions C26_no_deadlock.
Print Assumptions C26_assert_never.
Print Assumptions C27_no_silent_loss.
Print Assumptions C27_right_exception.
Print Assumptions C27_reported_partial.
Print Assumptions C27_deadlock_shape.
Print Assumptions C27_reported_refuted.
Print Assumptions C25_needs_jobs.
Print Assumptions C26_status_leftover.
Print Assumptions C27_only_filters.
Print Assumptions C25_statistics.
