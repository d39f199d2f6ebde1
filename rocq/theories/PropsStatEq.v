(** C108: comparing statistics. *)
From Verif Require Import Base LayoutModel WriterModel WriterSpec StatsModel StatsSpec MergeProofs StatEqModel DataFingermap LayoutProofs.
From Verif Require PropsStats PlotProofs.
Open Scope string_scope.
Open Scope list_scope.
Unset Implicit Arguments.

Definition same {V} (R : V -> V -> Prop) (x y : option V) : Prop :=
  match x, y with Some v, Some w => R v w | None, None => True | _, _ => False end.
Lemma pydict_eqb_spec {K V} `{EqDec K} (e : V -> V -> bool) (R : V -> V -> Prop) (d d' : list (K * V)) : dict_wf d -> dict_wf d' ->
  (forall k v w, dget d k = Some v -> dget d' k = Some w -> (e v w = true <-> R v w)) ->
  (pydict_eqb e d d' = true <-> forall k, same R (dget d k) (dget d' k)).
Proof.
  intros W W' Er. unfold pydict_eqb. rewrite andb_true_iff, Nat.eqb_eq, forallb_forall. split.
  - intros [Hl F] k.
    assert (Inc : incl (dkeys d) (dkeys d')).
    { intros x I. apply in_map_iff in I as ([y v] & <- & I). specialize (F _ I). cbn [fst snd] in *. destruct (dget d' y) as [w|] eqn:E; [|discriminate F]. apply dget_key. eauto. }
    assert (Inc' : incl (dkeys d') (dkeys d)) by (apply NoDup_length_incl; [exact W|unfold dkeys; rewrite !map_length; lia|exact Inc]).
    destruct (dget d k) as [v|] eqn:E; [|destruct (dget d' k) as [w|] eqn:E'; [|exact I]].
    + pose proof (proj1 (dget_In_iff _ _ _ W) E) as I. specialize (F _ I). cbn [fst snd] in F. destruct (dget d' k) as [w|] eqn:E'; [|discriminate F]. apply (Er k v w E E'), F.
    + assert (I : In k (dkeys d')) by (apply dget_key; eauto). apply Inc', dget_key in I as [v I]. congruence.
  - intros S. assert (Ik : forall k, In k (dkeys d) <-> In k (dkeys d')).
    { intros k. specialize (S k). split; intros I; apply dget_key in I as [v I]; rewrite I in S; apply dget_key.
      - destruct (dget d' k); [eauto|destruct S].
      - destruct (dget d k); [eauto|destruct S]. }
    split.
    + pose proof (NoDup_incl_length W (fun k => proj1 (Ik k))) as L1. pose proof (NoDup_incl_length W' (fun k => proj2 (Ik k))) as L2. unfold dkeys in *. rewrite !map_length in *. lia.
    + intros [k v] I. cbn [fst snd]. apply (dget_In_iff _ _ _ W) in I. specialize (S k). rewrite I in S. destruct (dget d' k) as [w|] eqn:E'; [|destruct S]. apply (Er k v w I E'), S.
Qed.
Lemma counter_eqb_spec {K} `{EqDec K} (d d' : list (K * Z)) : dict_wf d -> dict_wf d' -> (pydict_eqb Z.eqb d d' = true <-> forall k, dget d k = dget d' k).
Proof.
  intros W W'. rewrite (pydict_eqb_spec Z.eqb eq d d' W W') by (intros; apply Z.eqb_eq). split; intros S k; specialize (S k); unfold same in *.
  - destruct (dget d k), (dget d' k); congruence || destruct S || reflexivity.
  - rewrite S. destruct (dget d' k); [reflexivity|exact I].
Qed.

(** * Statistics of the program *)
(** Both hands are in the dictionary of run lengths. *)
Definition handed (s : allstats) : Prop := forall h, exists dist, dget (r_hand (a_runlen s)) h = Some dist.
(** Everything that can be made by collecting and combining *)
Inductive reached fm letter L kb : allstats -> Prop :=
  | r_init s : makeCombined kb = Ok s -> reached fm letter L kb s
  | r_run s es s' : reached fm letter L kb s -> foldM (stats_process fm letter L) es s = Ok s' -> reached fm letter L kb s'
  | r_update s t : reached fm letter L kb s -> reached fm letter L kb t -> reached fm letter L kb (stats_update s t).
Lemma handed_inc d h n d' : nested_inc d h n = Ok d' -> (forall h : direction, exists dist : list (nat * Z), dget d h = Some dist) -> forall h, exists dist, dget d' h = Some dist.
Proof.
  unfold nested_inc. intros E H k. apply PlotProofs.bind_inv in E as (inner & _ & [= <-]). rewrite dget_dset. destruct (eqb k h); [eauto|apply H].
Qed.
Lemma handed_process fm letter L s e s' : handed s -> stats_process fm letter L s e = Ok s' -> handed s'.
Proof.
  unfold stats_process, handed. intros H E. apply PlotProofs.bind_inv in E as (a & _ & E). apply PlotProofs.bind_inv in E as (r & Er & E). apply PlotProofs.bind_inv in E as (t & _ & E).
  apply PlotProofs.bind_inv in E as (w & _ & [= <-]). cbn [a_runlen]. destruct e; cbn [runlen_process] in Er; [|injection Er as <-; exact H|discriminate Er].
  apply PlotProofs.bind_inv in Er as (b & _ & Er). apply PlotProofs.bind_inv in Er as ([h f] & _ & Er). apply PlotProofs.bind_inv in Er as (hd & Eh & Er).
  apply PlotProofs.bind_inv in Er as (fd & _ & [= <-]). cbn [r_hand]. destruct (r_lastHand (a_runlen s)) as [l|]; [|injection Eh as <-; exact H].
  destruct (eqb h l); [injection Eh as <-; exact H|]. apply PlotProofs.bind_inv in Eh as (d & Ed & [= <-]). cbn [fst]. apply (handed_inc _ _ _ _ Ed H).
Qed.
Lemma reached_ok fm letter L kb s : reached fm letter L kb s -> stats_wf s /\ handed s.
Proof.
  induction 1 as [s E|s es s' _ [W H] E|s t _ [W H] _ [W' H']].
  - split; [apply (@makeCombined_wf _ _ E)|]. unfold makeCombined in E. apply PlotProofs.bind_inv in E as (t & _ & [= <-]). intros [|]; eexists; reflexivity.
  - split; [apply (@processed_wf _ _ _ _ _ _ W E)|]. clear W. revert s H E. induction es as [|e es IH]; intros s H E; cbn [foldM] in E; [injection E as <-; exact H|].
    apply PlotProofs.bind_inv in E as (s1 & E1 & E). apply (IH s1); [apply (handed_process _ _ _ _ _ _ H E1)|exact E].
  - split; [apply (@update_wf _ _ W W')|]. intros h. cbn [stats_update a_runlen runlen_update r_hand]. destruct W' as (_ & _ & _ & [W4 _] & _). unfold updateNested. rewrite updateDictOp_get by exact W4.
    destruct (H h) as [x ->], (H' h) as [y ->]. eexists. reflexivity.
Qed.
Lemma stats_eqb_spec a b : stats_wf a -> stats_wf b -> handed a -> handed b ->
  (stats_eqb a b = true <-> forall x, is_finger x = false -> recorded a x = recorded b x).
Proof.
  intros (A1 & A2 & A3 & [A4 A4'] & _ & A6 & A7) (B1 & B2 & B3 & [B4 B4'] & _ & B6 & B7) Ha Hb. unfold stats_eqb, simple_eqb, runlen_eqb, triads_eqb, words_eqb.
  rewrite !andb_true_iff, !counter_eqb_spec by assumption.
  rewrite (pydict_eqb_spec (pydict_eqb Z.eqb) (fun d d' => forall k, dget d k = dget d' k) _ _ A4 B4).
  2: { intros k v w Ev Ew. apply counter_eqb_spec; [apply (@Forall_dget _ _ _ dict_wf _ _ _ A4' Ev)|apply (@Forall_dget _ _ _ dict_wf _ _ _ B4' Ew)]. }
  split.
  - intros (((((E1 & E2) & E3) & E4) & E6) & E7) x Ex. destruct x; cbn [recorded]; auto; try discriminate Ex. unfold nlook. specialize (E4 h). destruct (dget _ h), (dget _ h); cbn in E4; try destruct E4; auto.
  - intros E. repeat split; try (intros k).
    + apply (E (CButton k) eq_refl).
    + apply (E (CComb k) eq_refl).
    + apply (E (CUnknown k) eq_refl).
    + destruct (Ha k) as [x Ex], (Hb k) as [y Ey]. rewrite Ex, Ey. cbn [same]. intros n. pose proof (E (CHand k n) eq_refl) as En. cbn [recorded] in En. unfold nlook in En. rewrite Ex, Ey in En. exact En.
    + apply (E (CTriad k) eq_refl).
    + apply (E (CWord k) eq_refl).
Qed.
(** Statistics are equal iff every counter has the same value, except those of fingers. *)
Theorem C108_equal fm letter L kb a b : reached fm letter L kb a -> reached fm letter L kb b ->
  (stats_eqb a b = true <-> forall x, is_finger x = false -> recorded a x = recorded b x).
Proof. intros Ra Rb. apply reached_ok in Ra as [Wa Ha]. apply reached_ok in Rb as [Wb Hb]. apply stats_eqb_spec; assumption. Qed.
(** It is an equivalence. *)
Theorem C108_equivalence fm letter L kb : forall a b c, reached fm letter L kb a -> reached fm letter L kb b -> reached fm letter L kb c ->
  stats_eqb a a = true /\ stats_eqb a b = stats_eqb b a /\ (stats_eqb a b = true -> stats_eqb b c = true -> stats_eqb a c = true).
Proof.
  intros a b c Ra Rb Rc. split; [apply (C108_equal _ _ _ _ _ _ Ra Ra); reflexivity|]. split.
  - apply eq_true_iff_eq. rewrite (C108_equal _ _ _ _ _ _ Ra Rb), (C108_equal _ _ _ _ _ _ Rb Ra). split; intros E x Ex; symmetry; apply E, Ex.
  - rewrite (C108_equal _ _ _ _ _ _ Ra Rb), (C108_equal _ _ _ _ _ _ Rb Rc), (C108_equal _ _ _ _ _ _ Ra Rc). intros E1 E2 x Ex. rewrite E1, E2 by exact Ex. reflexivity.
Qed.
Lemma combine_reached fm letter L kb l c : Forall (reached fm letter L kb) l -> combine_stats kb l = Ok c -> reached fm letter L kb c.
Proof.
  intros F E. unfold combine_stats in E. apply PlotProofs.bind_inv in E as (c0 & E0 & [= <-]). pose proof (r_init fm letter L kb _ E0) as R. clear E0. revert c0 R.
  induction F as [|s l Rs _ IH]; intros c0 R; [exact R|]. cbn [fold_left]. apply IH, r_update; assumption.
Qed.
(** Combining in any order and with any grouping gives equal statistics. *)
Theorem C108_combine fm letter L kb l l' c : Forall (reached fm letter L kb) l -> Permutation l l' -> combine_stats kb l = Ok c ->
  exists c', combine_stats kb l' = Ok c' /\ stats_eqb c c' = true.
Proof.
  intros F P E. assert (W : Forall stats_wf l) by (eapply Forall_impl; [|exact F]; intros s R; apply (reached_ok _ _ _ _ _ R)).
  destruct (PropsStats.C22_order kb l l' c W P E) as (c' & E' & S). exists c'. split; [exact E'|].
  apply (C108_equal fm letter L kb); [apply (combine_reached _ _ _ _ _ _ F E)|apply (combine_reached _ _ _ _ _ _ (Permutation_Forall P F) E')|]. intros x _. symmetry. apply S.
Qed.
Theorem C108_grouping fm letter L kb gs cs c : Forall (Forall (reached fm letter L kb)) gs -> mapM (combine_stats kb) gs = Ok cs -> combine_stats kb cs = Ok c ->
  exists c', combine_stats kb (concat gs) = Ok c' /\ stats_eqb c c' = true.
Proof.
  intros F E Ec. assert (W : Forall (Forall stats_wf) gs) by (eapply Forall_impl; [|exact F]; intros g; apply Forall_impl; intros s R; apply (reached_ok _ _ _ _ _ R)).
  destruct (PropsStats.C22_grouping kb gs cs c W E Ec) as (c' & E' & S). exists c'. split; [exact E'|].
  apply (C108_equal fm letter L kb); [|apply (combine_reached _ _ _ _ (concat gs)); [|exact E']|intros x _; apply S].
  - apply (combine_reached _ _ _ _ cs); [|exact Ec]. clear -F E. apply Base.mapM_Ok_inv in E. induction E as [|g c0 gs cs H _ IH]; [constructor|].
    inversion F as [|? ? F1 F2]. subst. constructor; [apply (combine_reached _ _ _ _ _ _ F1 H)|apply IH, F2].
  - clear -F. induction F as [|g gs H _ IH]; [constructor|]. cbn [concat]. apply Forall_app. split; assumption.
Qed.

(** * What is not compared *)
Definition ex_kb : list string := map fst defaultFingermap ++ ["Fl_space"; "Fr_space"; "CD_ret"; "Cl_tab"].
Definition ex_layout : layout := layout_new [mkLayer [frozenset []] [("Cl1", CText [97%N]); ("Cl2", CText [98%N]); ("Cl3", CText [99%N])]].
Definition ex_run (bs : list string) : res allstats :=
  do s <- makeCombined ex_kb; foldM (stats_process defaultFingermap (fun c => N.ltb 64 c) ex_layout) (map (fun b => SComb (press1 b)) bs) s.
Lemma ex_reached bs s : ex_run bs = Ok s -> reached defaultFingermap (fun c => N.ltb 64 c) ex_layout ex_kb s.
Proof. unfold ex_run. intros E. apply PlotProofs.bind_inv in E as (s0 & E0 & E). apply (r_run _ _ _ _ s0 _ _ (r_init _ _ _ _ _ E0) E). Qed.
(** Runs of fingers are not compared. *)
Theorem C108_fingers_refuted : exists fm letter L kb a b x, reached fm letter L kb a /\ reached fm letter L kb b /\ stats_eqb a b = true /\ recorded a x <> recorded b x.
Proof.
  destruct (ex_run ["Cl1"; "Cl2"]) as [a|] eqn:Ea; [|vm_compute in Ea; discriminate Ea]. destruct (ex_run ["Cl2"; "Cl1"]) as [b|] eqn:Eb; [|vm_compute in Eb; discriminate Eb].
  exists defaultFingermap, (fun c => N.ltb 64 c), ex_layout, ex_kb, a, b, (CFinger (LEFT, RING) 1). split; [apply (ex_reached _ _ Ea)|]. split; [apply (ex_reached _ _ Eb)|].
  assert (H : match ex_run ["Cl1"; "Cl2"], ex_run ["Cl2"; "Cl1"] with Ok a, Ok b => (stats_eqb a b, recorded a (CFinger (LEFT, RING) 1), recorded b (CFinger (LEFT, RING) 1)) | _, _ => (false, None, None) end = (true, Some 1%Z, None)) by (vm_compute; reflexivity).
  rewrite Ea, Eb in H. injection H as H1 H2 H3. split; [exact H1|]. change (nlook (r_finger (a_runlen a)) (LEFT, RING) 1 <> nlook (r_finger (a_runlen b)) (LEFT, RING) 1). rewrite H2, H3. discriminate.
Qed.
(** Nor is what was pressed last: equal statistics may differ after the same press. *)
Theorem C108_future_refuted : exists fm letter L kb a b e a' b', reached fm letter L kb a /\ reached fm letter L kb b /\ stats_eqb a b = true /\
  stats_process fm letter L a e = Ok a' /\ stats_process fm letter L b e = Ok b' /\ stats_eqb a' b' = false.
Proof.
  pose (step := fun s => stats_process defaultFingermap (fun c => N.ltb 64 c) ex_layout s (SComb (press1 "Cl3"))).
  assert (H : match ex_run ["Cl1"; "Cl2"], ex_run ["Cl2"; "Cl1"] with
              | Ok a, Ok b => match step a, step b with Ok a', Ok b' => (stats_eqb a b, stats_eqb a' b') | _, _ => (false, true) end
              | _, _ => (false, true) end = (true, false)) by (vm_compute; reflexivity).
  destruct (ex_run ["Cl1"; "Cl2"]) as [a|] eqn:Ea; [|discriminate H]. destruct (ex_run ["Cl2"; "Cl1"]) as [b|] eqn:Eb; [|discriminate H].
  destruct (step a) as [a'|] eqn:Sa; [|discriminate H]. destruct (step b) as [b'|] eqn:Sb; [|discriminate H]. injection H as H1 H2.
  exists defaultFingermap, (fun c => N.ltb 64 c), ex_layout, ex_kb, a, b, (SComb (press1 "Cl3")), a', b'. split; [apply (ex_reached _ _ Ea)|]. split; [apply (ex_reached _ _ Eb)|]. auto.
Qed.
(** But it stays equal when the same statistics are added to both. *)
Theorem C108_update fm letter L kb a b s : reached fm letter L kb a -> reached fm letter L kb b -> reached fm letter L kb s ->
  stats_eqb a b = true -> stats_eqb (stats_update a s) (stats_update b s) = true /\ stats_eqb (stats_update s a) (stats_update s b) = true.
Proof.
  intros Ra Rb Rs E. pose proof (proj1 (C108_equal _ _ _ _ _ _ Ra Rb) E) as S. destruct (reached_ok _ _ _ _ _ Ra) as [Wa _], (reached_ok _ _ _ _ _ Rb) as [Wb _], (reached_ok _ _ _ _ _ Rs) as [Ws _].
  split; apply (C108_equal fm letter L kb); try (apply r_update; assumption); intros x Ex.
  - rewrite !(@update_recorded _ s x Ws Ex), (S x Ex). reflexivity.
  - rewrite (@update_recorded s a x Wa Ex), (@update_recorded s b x Wb Ex), (S x Ex). reflexivity.
Qed.
(** Different texts have different statistics, the same presses in another order equal ones. *)
Example C108_example : match ex_run ["Cl1"; "Cl2"], ex_run ["Cl2"; "Cl1"], ex_run ["Cl1"; "Cl1"] with Ok a, Ok b, Ok c => (stats_eqb a b, stats_eqb a c) | _, _, _ => (false, true) end = (true, false).
Proof. vm_compute. reflexivity. Qed.
Example C108_combined : exists a b c, ex_run ["Cl1"; "Cl2"] = Ok a /\ ex_run ["Cl3"; "Cl3"] = Ok b /\ combine_stats ex_kb [a; b] = Ok c.
Proof. eexists _, _, _. split; [vm_compute; reflexivity|]. split; vm_compute; reflexivity. Qed.

Print Assumptions C108_equal.
Print Assumptions C108_equivalence.
Print Assumptions C108_combine.
Print Assumptions C108_grouping.
Print Assumptions C108_fingers_refuted.
Print Assumptions C108_future_refuted.
Print Assumptions C108_update.
