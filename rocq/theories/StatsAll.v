(** All statistics objects together, and on typed text. *)
From Verif Require Import Base LayoutModel LayoutSpec LayoutProofs WriterModel WriterSpec WriterProofs StatsModel StatsSpec StatsProofs MergeProofs.
Set Implicit Arguments.
Open Scope string_scope.
Open Scope list_scope.

Lemma stats_process_fold fm letter L es : forall s a r t w,
  foldM simple_process es (a_simple s) = Ok a -> foldM (runlen_process fm) es (a_runlen s) = Ok r ->
  foldM triads_process es (a_triads s) = Ok t -> foldM (words_process letter L) es (a_words s) = Ok w ->
  foldM (stats_process fm letter L) es s = Ok (mkStats a r t w).
Proof.
  induction es as [|e es IH]; intros s a r t w Ha Hr Ht Hw; cbn [foldM] in *.
  - destruct s; cbn in *. congruence.
  - unfold stats_process at 1.
    destruct (simple_process (a_simple s) e); cbn [bind] in *; [|discriminate].
    destruct (runlen_process fm (a_runlen s) e); cbn [bind] in *; [|discriminate].
    destruct (triads_process (a_triads s) e); cbn [bind] in *; [|discriminate].
    destruct (words_process letter L (a_words s) e); cbn [bind] in *; [|discriminate].
    apply IH; assumption.
Qed.

Lemma handled_single fm L e : handled fm L e -> single e.
Proof. intros [Hp _]. destruct e; cbn in *; [|exact I|exact Hp]. destruct Hp as (b & E & _). eauto. Qed.
Lemma handled_proper fm L e : handled fm L e -> proper e.
Proof. intros [Hp _] ->. exact Hp. Qed.

Lemma counts_nonzero {K} `{EqDec K} d (f : K -> Z) k : counts d f -> dget d k = nonzero (f k).
Proof. intros [_ Hc]. rewrite Hc. unfold nonzero. reflexivity. Qed.
Lemma nested_nonzero {K} `{EqDec K} keys (d : list (K * list (nat * Z))) l k n : nested_counts keys d l -> In k keys ->
  nlook d k n = nonzero (count (k, n) l).
Proof. intros [_ Hc] Hk. destruct (Hc k Hk) as (i & Ei & Ci). unfold nlook. rewrite Ei. rewrite (counts_nonzero n Ci). reflexivity. Qed.
Lemma sumZ_ext {A} (f g : A -> Z) l : (forall x, f x = g x) -> sumZ f l = sumZ g l.
Proof. intros E. induction l as [|x l IH]; cbn; [reflexivity|]. rewrite E. fold (sumZ f l) (sumZ g l). rewrite IH. reflexivity. Qed.
Lemma presses_sum b es : count b (flat_map ev_buttons es) = sumZ (presses b) es.
Proof. rewrite count_concat. apply sumZ_ext. intros e. apply presses_count. Qed.
Lemma combs_sum c es : count c (flat_map ev_combs es) = sumZ (is_press c) es.
Proof. rewrite count_concat. apply sumZ_ext. intros [c'| |]; [|reflexivity..]. cbn [is_press ev_combs count]. destruct (eqb c c'); reflexivity. Qed.
Lemma skips_sum c es : count c (flat_map ev_skips es) = sumZ (is_skip c) es.
Proof. rewrite count_concat. apply sumZ_ext. intros [|c'|]; [reflexivity| |reflexivity]. cbn [is_skip ev_skips count]. destruct (eqb c c'); reflexivity. Qed.

Lemma triads_init_ok kb : incl ["Fl_space"; "Fr_space"; "CD_ret"; "Cl_tab"] kb -> triads_init kb = Ok (mkTriads [] [] spaces).
Proof.
  intros Hi. unfold triads_init. rewrite mapM_total with (g := fun x => x); [rewrite map_id; reflexivity|].
  intros x Hx. unfold kfind. apply Hi, mem_In in Hx. rewrite Hx. reflexivity.
Qed.

Theorem stats_all fm letter L kb es : incl ["Fl_space"; "Fr_space"; "CD_ret"; "Cl_tab"] kb -> Forall (handled fm L) es ->
  exists s0 s, makeCombined kb = Ok s0 /\ foldM (stats_process fm letter L) es s0 = Ok s /\
    forall x, recorded s x = nonzero (expected fm letter L spaces es x).
Proof.
  intros Hi Hes. unfold makeCombined. rewrite triads_init_ok by exact Hi. cbn [bind].
  destruct (@simple_inv es) as (a & Ea & A1 & A2 & A3); [eapply Forall_impl; [|exact Hes]; apply handled_proper|].
  destruct (@runlen_inv fm es) as (r & Er & [R1 R2] & _); [eapply Forall_impl; [|exact Hes]; intros e He; apply He|].
  destruct (@triads_inv spaces es) as (t & Et & _ & _ & T1); [eapply Forall_impl; [|exact Hes]; apply handled_single|].
  destruct (@words_inv letter L es) as (w & Ew & _ & W1); [eapply Forall_impl; [|exact Hes]; intros e He; apply He|].
  eexists _, _. split; [reflexivity|]. split; [apply stats_process_fold; eassumption|].
  intros [b|c|ch|h n|hf n|t'|w']; cbn [recorded a_simple a_runlen a_triads a_words expected].
  - rewrite (counts_nonzero b A1), presses_sum. reflexivity.
  - rewrite (counts_nonzero c A2), combs_sum. reflexivity.
  - rewrite (counts_nonzero ch A3), skips_sum. reflexivity.
  - rewrite (nested_nonzero h n R1) by apply all_directions_In. rewrite count_concat. reflexivity.
  - rewrite (nested_nonzero hf n R2) by apply all_hf_In. rewrite count_concat. reflexivity.
  - rewrite (counts_nonzero t' T1), count_concat. reflexivity.
  - rewrite (counts_nonzero w' W1), count_concat. reflexivity.
Qed.

(** Events produced by the writer are handled. *)
Lemma typed_handled fm ls last t : layers_ok ls -> layers_wf ls -> mods_disjoint ls -> fingered fm ls ->
  Forall (handled fm (layout_new ls)) (map ev_obj (fst (fst (type_text fm (layout_new ls) last t)))).
Proof.
  intros Hok Hwf Hd Hf.
  destruct (bufferLen_attained ls) as [E|(x & Hx & _)].
  - rewrite type_null by exact E. constructor.
  - destruct (@type_coverage fm text read_full (fun t => t) ls) with (fuel := S (length t)) (r := t) (buf := @nil N) (last := last)
      as (es & l & E & _ & Hw); eauto using full_reads_file, read_full_ok; [cbn; lia|].
    unfold type_text. rewrite E. cbn [fst]. rewrite Forall_map. eapply Forall_impl; [|exact Hw]. intros [m c|ch]; cbn; [|split; exact I].
    intros Hi. pose proof Hi as Hi'. apply in_ways in Hi as (la & b & md & Hla & Hb & Hm & ->). split.
    + exists b. split; [apply ssort_single || reflexivity|]. apply Hf. unfold mentioned. apply in_flat_map. exists la. split; [exact Hla|].
      apply in_or_app. right. apply in_map_iff. exists (b, CText m). auto.
    + exists m. apply getText_ways; assumption.
Qed.
