(** Proofs about the command line tool (C33-C39). *)
From Coq Require Import QArith.
From Verif Require Import Base LayoutModel LayoutSpec LayoutProofs CarpalxModel CarpalxSpec CarpalxProofs CarpalxQ OptModel OptSpec OptProofs OptEnergy OptLayout.
Close Scope Q_scope.
Open Scope list_scope.
Set Implicit Arguments.
Unset Strict Implicit.

(** * The relabelled layout *)
Lemma reread_ok ordm ls kb bm : (forall s, Permutation (ordm s) (elems s)) -> mods_disjoint ls ->
  Forall (fun l => lmods l <> []) ls -> one_to_one bm -> Forall (fun k => fst k < List.length ls) (dkeys bm) ->
  exists out, new_layers ordm (layout_new ls) kb bm = Ok out /\
    relabelled kb bm ls (reread out) /\ layers_wf (reread out).
Proof.
  intros Ho Hd Hm H1 Hr. destruct (new_layers_ok ordm kb Hd Hm H1 Hr) as (out & E & Hlen & Hok & Hmod & Hcell).
  exists out. split; [assumption|].
  assert (Fz : forall ms : list bset, map frozenset (map ordm ms) = ms).
  { induction ms as [|m ms IH]; cbn; [reflexivity|]. f_equal; [|assumption].
    rewrite <- (frozenset_elems m) at 2. apply frozenset_ext. intros x.
    split; apply Permutation_in; [|apply Permutation_sym]; apply Ho. }
  unfold reread, generic_deserialize; cbn [glayers gd_layout]. split; [split|].
  - rewrite map_map. cbn [lmods].
    assert (G : forall (o2 : list layer_data) (l2 : list layer), List.length o2 = List.length l2 ->
      (forall j l, nth_error l2 j = Some l -> mod_of o2 j = Some (map ordm (lmods l))) ->
      map (fun x => map frozenset (ld_modifier x)) o2 = map lmods l2).
    { clear - Fz. induction o2 as [|d o2 IH]; intros [|l l2] Hl Hn; cbn in *; try discriminate; [reflexivity|].
      f_equal; [|apply IH; [congruence|intros j l' Hj; exact (Hn (S j) l' Hj)]].
      pose proof (Hn 0 l eq_refl) as Q. unfold mod_of in Q; cbn in Q. injection Q as ->. apply Fz. }
    apply G; assumption.
  - intros x v. rewrite <- Hcell. unfold says, cell_of. rewrite nth_error_map.
    destruct (nth_error out (fst x)) as [d|]; cbn; split.
    + intros (l & [= <-] & G). exact G.
    + intros G. eexists; split; [reflexivity|exact G].
    + intros (l & C & _). discriminate.
    + discriminate.
  - unfold layers_wf. apply Forall_map. unfold dicts_ok in Hok. eapply Forall_impl; [|exact Hok]. auto.
Qed.

Section Relabelled.
  Variables (kb : list string) (bm : bmap) (ls ls' : list layer).
  Hypothesis Hrel : relabelled kb bm ls ls'.
  Hypothesis Hone : one_to_one bm.
  Hypothesis Hd : mods_disjoint ls.

  Lemma rel_nth i l : nth_error ls i = Some l -> exists l', nth_error ls' i = Some l' /\ lmods l' = lmods l.
  Proof.
    intros E. destruct Hrel as [Hm _].
    assert (Q : nth_error (map lmods ls') i = Some (lmods l)) by (rewrite Hm, nth_error_map, E; reflexivity).
    rewrite nth_error_map in Q. destruct (nth_error ls' i) as [l'|]; [|discriminate]. injection Q as Q. eauto.
  Qed.
  Lemma rel_nth' i l' : nth_error ls' i = Some l' -> exists l, nth_error ls i = Some l /\ lmods l' = lmods l.
  Proof.
    intros E. destruct Hrel as [Hm _].
    assert (Q : nth_error (map lmods ls) i = Some (lmods l')) by (rewrite <- Hm, nth_error_map, E; reflexivity).
    rewrite nth_error_map in Q. destruct (nth_error ls i) as [l|]; [|discriminate]. injection Q as Q. eauto.
  Qed.
  Lemma rel_disjoint : mods_disjoint ls'.
  Proof.
    intros i j l l' m Hi Hj Hm Hm'. destruct (rel_nth' Hi) as (k & Ek & Mk). destruct (rel_nth' Hj) as (k' & Ek' & Mk').
    rewrite Mk in Hm. rewrite Mk' in Hm'. eapply Hd; eauto.
  Qed.
  (** What is typed with a combination, in terms of [says] *)
  Lemma getText_says (q : list layer) : mods_disjoint q -> forall i l m b, nth_error q i = Some l -> In m (lmods l) ->
    forall v, getText (layout_new q) (mkComb m (frozenset [b])) = Ok v <-> says q (i, b) v.
  Proof.
    intros Hq i l m b Hl Hm v. rewrite (getText_key Hq b Hl Hm). rewrite dgetM_Ok. unfold says; cbn [fst snd]. split; [eauto|].
    intros (l2 & E & G). congruence.
  Qed.
  Lemma getText_err (q : list layer) : mods_disjoint q -> forall i l m b e, nth_error q i = Some l -> In m (lmods l) ->
    getText (layout_new q) (mkComb m (frozenset [b])) = Raise e -> e = KeyError.
  Proof.
    intros Hq i l m b e Hl Hm. rewrite (getText_key Hq b Hl Hm). unfold dgetM. destruct (dget _ _); cbn; congruence.
  Qed.
  Lemma rel_text i l m b j l' m' b' : nth_error ls i = Some l -> In m (lmods l) ->
    nth_error ls' j = Some l' -> In m' (lmods l') -> In b kb -> sent bm (i, b) (j, b') ->
    getText (layout_new ls') (mkComb m' (frozenset [b'])) = getText (layout_new ls) (mkComb m (frozenset [b])).
  Proof.
    intros Hi Hm Hj Hm' Hb Hs.
    pose proof (getText_says Hd b Hi Hm) as G. pose proof (getText_says rel_disjoint b' Hj Hm') as G'.
    assert (Iff : forall v, says ls' (j, b') v <-> says ls (i, b) v).
    { intros v. destruct Hrel as [_ Hr]. rewrite Hr. split.
      - intros (k & _ & Sk & V). now rewrite <- (sent_inj Hone Sk Hs).
      - intros V. exists (i, b). auto. }
    destruct (getText (layout_new ls) _) as [v|e] eqn:E.
    - apply G', Iff, G. reflexivity.
    - destruct (getText (layout_new ls') _) as [v'|e'] eqn:E'.
      + assert (C : Raise e = Ok v') by (apply G, Iff, G'; reflexivity). discriminate.
      + rewrite (getText_err Hd Hi Hm E), (getText_err rel_disjoint Hj Hm' E'). reflexivity.
  Qed.
  (** Typing the mapped combination on the new layout *)
  Lemma rel_mapButton c c' : Forall (fun b => In b kb) (elems (cbtn c)) ->
    mapButton (layout_new ls) bm c = Ok c' ->
    getText (layout_new ls') c' = getText (layout_new ls) c.
  Proof.
    intros Hkb E. rewrite mapButton_alt in E. apply bind_Ok in E as ([i b] & Ek & E).
    unfold key_of in Ek. apply bind_Ok in Ek as ([i0 l] & Em & Ek). apply bind_Ok in Ek as (u & Ea & Ek).
    apply bind_Ok in Ek as (b0 & Ef & Ek). injection Ek as Ei Eb. cbn [fst] in Ei. subst i0 b0.
    apply assert_Ok, Nat.eqb_eq in Ea.
    destruct c as [m bs]; cbn [cmod cbtn] in *. destruct (elems bs) as [|b1 [|]] eqn:Eb; try discriminate. injection Ef as ->.
    assert (bs = frozenset [b]) as -> by (apply bset_ext; intros x; rewrite Eb, In_frozenset; reflexivity).
    apply modifierToLayer_ok in Em as (Hl & Hm & _).
    apply bind_Ok in E as ([j b'] & Et & E). apply dgetM_Ok in Et. unfold comb_at in E; cbn [fst snd] in E.
    apply bind_Ok in E as (l' & El & E). apply of_opt_Ok in El. rewrite layout_new_layers in El.
    apply bind_Ok in E as (m' & Em' & E). apply of_opt_Ok in Em'. injection E as <-.
    destruct (rel_nth El) as (l2 & Hl2 & Hmods).
    apply (@rel_text i l m b j l2 m' b'); auto.
    - rewrite Hmods. destruct (lmods l'); [discriminate|]. injection Em' as ->. left; reflexivity.
    - inversion Hkb; assumption.
    - now apply sent_mapped.
  Qed.
  (** No text is lost, none is invented. *)
  Lemma says_assigned q t : layers_wf q -> (assigned q t <-> exists k, says q k (CText t)).
  Proof.
    intros Hw. split.
    - intros (b & l & Hl & Hin). apply In_nth_error in Hl as (i & Hi). exists (i, b), l. split; [assumption|].
      unfold layers_wf in Hw. rewrite Forall_forall in Hw. apply (dget_In_iff _ _ _ (Hw l (nth_error_In _ _ Hi))). assumption.
    - intros ([i b] & l & Hi & G). exists b, l. split; [eapply nth_error_In; eauto|]. now apply dget_In in G.
  Qed.
  Lemma rel_assigned t : layers_wf ls -> layers_wf ls' ->
    Forall (fun l => Forall (fun b => In b kb) (dkeys (llayout l))) ls ->
    (assigned ls' t <-> assigned ls t).
  Proof.
    intros Hw Hw' Hkb. rewrite !says_assigned by assumption. destruct Hrel as [_ Hr]. split.
    - intros (x & Hx). apply Hr in Hx as (k & _ & _ & Hk). eauto.
    - intros (k & Hk). exists (target bm k). apply Hr. exists k. split; [|split; [apply target_sent|assumption]].
      destruct Hk as (l & Hl & G). rewrite Forall_forall in Hkb. pose proof (Hkb l (nth_error_In _ _ Hl)) as F.
      rewrite Forall_forall in F. apply F. apply dget_key. eauto.
  Qed.
End Relabelled.

(** * The initial map *)
Lemma In_combine_same {A} (l : list A) x y : In (x, y) (combine l l) <-> x = y /\ In x l.
Proof.
  induction l as [|z l IH]; cbn; [tauto|]. rewrite IH. split.
  - intros [[= -> ->]|[-> ?]]; auto.
  - intros [-> [->|?]]; auto.
Qed.
Lemma combine_map_fst {A} (l : list A) : map fst (combine l l) = l.
Proof. induction l; cbn; f_equal; auto. Qed.
Lemma combine_map_snd {A} (l : list A) : map snd (combine l l) = l.
Proof. induction l; cbn; f_equal; auto. Qed.
Section Initial.
  Variables (ls : list layer) (kb : list string) (isLetter : string -> bool).
  Notation L := (layout_new ls).
  Hypothesis Hkb : NoDup kb.
  Notation keys := (flat_map (fun il => map (fun k => (fst il, k)) (filter (mutable_key L isLetter) kb)) (enumerate ls)).
  Lemma initial_keys_In i k : In (i, k) keys <-> i < List.length ls /\ In k kb /\ mutable_key L isLetter k = true.
  Proof.
    rewrite in_flat_map. split.
    - intros ([i' l] & Hin & H). apply in_map_iff in H as (k' & [= <- <-] & Hf). apply filter_In in Hf as [? ?].
      split; [|auto]. apply nth_error_Some. cbn [fst]. apply enumerate_nth in Hin. congruence.
    - intros (Hi & Hk & Hm). destruct (nth_error ls i) as [l|] eqn:E; [|apply nth_error_None in E; lia].
      exists (i, l). split; [now apply enumerate_nth|]. apply in_map_iff. exists k. split; [reflexivity|]. now apply filter_In.
  Qed.
  Lemma initial_keys_NoDup : NoDup keys.
  Proof.
    assert (Q : forall n (l : list layer), NoDup (flat_map (fun il => map (fun k => (fst il, k)) (filter (mutable_key L isLetter) kb)) (combine (seq n (List.length l)) l))).
    { intros n l. revert n. induction l as [|x l IH]; intros n; cbn; [constructor|]. apply NoDup_app'.
      - apply FinFun.Injective_map_NoDup; [intros a b E; congruence|]. now apply NoDup_filter.
      - apply IH.
      - intros [i k] Hin Hin2. apply in_map_iff in Hin as (k' & E & _). injection E as Ei _. cbn [fst] in Ei.
        apply in_flat_map in Hin2 as ([i2 l2] & H2 & H3). apply in_map_iff in H3 as (k2 & E2 & _). injection E2 as E2 _. cbn [fst] in E2.
        apply in_combine_l, in_seq in H2. lia. }
    apply Q.
  Qed.
  Lemma initial_map_alt : initial_map L kb isLetter = combine keys keys.
  Proof.
    unfold initial_map. rewrite layout_new_layers. cbn zeta. apply dict_of_id.
    unfold dict_wf, dkeys. rewrite combine_map_fst. apply initial_keys_NoDup.
  Qed.
  Lemma initial_goes k t : goes (initial_map L kb isLetter) k t <->
    t = k /\ fst k < List.length ls /\ In (snd k) kb /\ mutable_key L isLetter (snd k) = true.
  Proof.
    unfold goes. rewrite initial_map_alt.
    rewrite (dget_In_iff (combine keys keys) k t).
    2:{ unfold dict_wf, dkeys. rewrite combine_map_fst. apply initial_keys_NoDup. }
    rewrite In_combine_same. destruct k as [i k]; cbn [fst snd]. rewrite initial_keys_In. intuition congruence.
  Qed.
  Lemma initial_one : one_to_one (initial_map L kb isLetter).
  Proof.
    rewrite initial_map_alt. split.
    - unfold dict_wf, dkeys. rewrite combine_map_fst. apply initial_keys_NoDup.
    - unfold dkeys, dvals. rewrite combine_map_fst, combine_map_snd. apply Permutation_refl.
  Qed.
  Lemma initial_range : Forall (fun k => fst k < List.length ls) (dkeys (initial_map L kb isLetter)).
  Proof.
    rewrite initial_map_alt. unfold dkeys. rewrite combine_map_fst. apply Forall_forall. intros [i k] Hin.
    apply initial_keys_In in Hin. cbn. tauto.
  Qed.
End Initial.

Lemma mutations_rearranged kb ms : forall bm bm', dict_wf bm -> apply_mutations kb ms bm = Ok bm' -> rearranged bm bm'.
Proof.
  induction ms as [|ab ms IH]; intros bm bm' W; cbn [apply_mutations foldM]; [intros [= <-]; apply rearranged_refl|].
  intros E. apply bind_Ok in E as (b1 & E1 & E). apply bind_Ok in E1 as (a & Ea & E1). apply bind_Ok in E1 as (b & Eb & E1).
  pose proof (swap_rearranged W E1) as R. eapply rearranged_trans; [exact R|]. eapply IH; [|exact E].
  eapply rearranged_wf; eauto.
Qed.

(** * The whole run, in exact arithmetic *)
Lemma strict_Q : strict Qnum.
Proof.
  split; cbn [nltb Qnum].
  - intros x. destruct (negb _) eqn:E; [|reflexivity]. apply negb_true_iff in E.
    assert (C : Qle_bool x x = true) by (apply Qle_bool_iff, Qle_refl). congruence.
  - intros x y z. rewrite !negb_true_iff. intros A B. destruct (Qle_bool z x) eqn:C; [|reflexivity].
    apply Qle_bool_iff in C.
    assert (A' : (x < y)%Q) by (apply Qnot_le_lt; intros H; apply Qle_bool_iff in H; congruence).
    assert (B' : (y < z)%Q) by (apply Qnot_le_lt; intros H; apply Qle_bool_iff in H; congruence).
    exfalso. apply (Qlt_irrefl x). eapply Qlt_le_trans; [eapply Qlt_trans; eauto|assumption].
Qed.
Lemma nltb_Q (x y : Qnum) : nltb x y = true <-> (x < y)%Q.
Proof.
  cbn [nltb Qnum]. rewrite negb_true_iff. split.
  - intros E. apply Qnot_le_lt. intros H. apply Qle_bool_iff in H. congruence.
  - intros H. destruct (Qle_bool y x) eqn:E; [|reflexivity]. apply Qle_bool_iff in E. exfalso. apply (Qlt_irrefl x). eapply Qlt_le_trans; eauto.
Qed.

Lemma Q_track (x x' e d e0 : Q) : (x == e0 + e -> d == x' - x -> x' == e0 + (e + d))%Q.
Proof. intros A B. rewrite B, A. ring. Qed.
Lemma Q_below (x y : Q) : (y <= 0 -> x + y <= x)%Q.
Proof. intros H. rewrite <- (Qplus_0_r x) at 2. apply Qplus_le_compat; [apply Qle_refl|exact H]. Qed.
Section Walks.
  Variable o : optimizer Qnum.
  Hypothesis Hs2t : stateToTriad (o_layout o) (o_triads o) = Ok (o_s2t o).
  Variables (rnd : nat -> nat) (ord : list nat -> list nat) (fuel : nat).
  Hypothesis Hord : forall l, Permutation (ord l) l.
  Variable thr : nat -> Qnum.
  Variable m : model Qnum.
  Variable e0 : Q.
  (** Accepted states know their energy. *)
  Definition knows_energy (s : robj Qnum * bmap * Qnum) : Prop :=
    in_step o (fst (fst s)) (snd (fst s)) /\ rmodel (fst (fst s)) = m /\ (reffort (fst (fst s)) == e0 + (snd s : Q))%Q.
  Lemma walk_energy i n cur dm p hist fin :
    walk (mutate o rnd ord fuel) thr i n cur dm p hist fin -> knows_energy cur ->
    Forall knows_energy hist /\ knows_energy fin.
  Proof.
    induction 1 as [|i n c bm e dm p c' bm' d p' hist fin E A W IH|i n c bm e dm p c' bm' d p' hist fin E A W IH]; intros K; cbn [fst snd] in *.
    - split; [constructor|assumption].
    - assert (K' : knows_energy (c', bm', nadd e d)).
      { destruct K as (K1 & K2 & K3). cbn [fst snd] in *. destruct (mutate_in_step Hs2t Hord K1 E) as (I & M & D).
        split; [assumption|]. split; cbn [fst snd]; [congruence|].
        exact (Q_track K3 D). }
      destruct (IH K'). split; [constructor; auto|auto].
    - auto.
  Qed.
End Walks.

Section Run.
  Variable o : optimizer Qnum.
  Hypothesis Hs2t : stateToTriad (o_layout o) (o_triads o) = Ok (o_s2t o).
  Variables (rnd : nat -> nat) (ord : list nat -> list nat) (fuel : nat).
  Hypothesis Hord : forall l, Permutation (ord l) l.
  Variable thr : nat -> Qnum.

  Theorem opt_run_spec n c bm p s : dict_wf bm -> opt_run o rnd ord fuel thr n c bm p = Ok s ->
    exists cf mf cb mb e0,
      holds (a_heap s) (a_state s) cf mf /\ holds (a_heap s) (fst (a_best s)) cb mb /\
      good o bm mf /\ good o bm mb /\
      in_step o cf mf /\ in_step o cb mb /\ rmodel cf = rmodel c /\ rmodel cb = rmodel c /\
      costs (o_layout o) (o_triads o) (rmodel c) bm e0 /\
      (reffort cf == e0 + (a_energy s : Q))%Q /\ (reffort cb == e0 + (snd (a_best s) : Q))%Q /\
      (reffort cb <= reffort cf)%Q /\ (reffort cb <= e0)%Q.
  Proof.
    intros W. unfold opt_run. intros E. apply bind_Ok in E as (c' & Er & E).
    destruct (reset_in_step Er) as [I M].
    assert (H0 : holds (mkHeap [c'] [bm]) (0, 0) c' bm) by (split; reflexivity).
    destruct (run_walk strict_Q H0 E) as (hist & cf & mf & cb & mb & Wk & Hf & Hb & Bin & Bmin).
    assert (K0 : knows_energy o (rmodel c) (reffort c') (c', bm, nofZ 0)).
    { split; [exact I|]. split; [exact M|]. apply Qadd_unit. }
    destruct (walk_energy Hs2t Hord Wk K0) as [Kh Kf].
    pose proof (walk_inv (P:=fun _ q => good o bm q) (fun c1 m1 p1 c2 m2 d p2 G Em => mutate_good W G Em) Wk
      (conj (rearranged_refl bm) (pins_kept_refl (o_pins o) bm))) as [Gh Gf]. cbn [fst snd] in Gf.
    assert (Kb : knows_energy o (rmodel c) (reffort c') (cb, mb, snd (a_best s))).
    { destruct Bin as [<-|Bin]; [exact K0|]. rewrite Forall_forall in Kh. apply (Kh _ Bin). }
    assert (Gb : good o bm mb).
    { destruct Bin as [Eq|Bin]; [injection Eq as _ <- _; split; [apply rearranged_refl|apply pins_kept_refl]|].
      rewrite Forall_forall in Gh. apply (Gh _ Bin). }
    exists cf, mf, cb, mb, (reffort c').
    destruct Kf as (F1 & F2 & F3), Kb as (B1 & B2 & B3). cbn [fst snd] in *.
    assert (Low : forall x, In x ((c', bm, nofZ 0) :: hist) -> ((snd (a_best s) : Q) <= snd x)%Q).
    { intros x Hx. apply Qnot_lt_le. intros C. apply (Bmin x Hx). unfold below. apply nltb_Q. exact C. }
    pose proof (walk_last Wk) as Last.
    assert (Inl : In (cf, mf, a_energy s) ((c', bm, nofZ 0) :: hist)).
    { rewrite Last. clear. destruct hist as [|x h]; [left; reflexivity|]. right. generalize (c', bm, (nofZ 0 : Qnum)) as z.
      revert x. induction h as [|y h IH]; intros x z; [left; reflexivity|]. right. exact (IH y z). }
    split; [assumption|]. split; [assumption|]. split; [assumption|]. split; [assumption|]. split; [assumption|]. split; [assumption|].
    split; [assumption|]. split; [assumption|].
    split; [rewrite <- M; now apply in_step_costs|]. split; [exact F3|]. split; [exact B3|].
    split.
    - rewrite F3, B3. apply Qplus_le_compat; [apply Qle_refl|]. exact (Low _ Inl).
    - rewrite B3. pose proof (Low _ (or_introl eq_refl)) as Z. apply Q_below; exact Z.
  Qed.
End Run.

(** * optimize *)
Lemma opt_new_Ok {nm} bm (ts : list (triad * carrier nm)) L pins o : opt_new bm ts L pins = Ok o ->
  stateToTriad L ts = Ok (o_s2t o) /\ o = mkOpt ts L pins (dkeys bm) (o_s2t o).
Proof. unfold opt_new. intros E. apply bind_Ok in E as (s & Es & E). injection E as <-. auto. Qed.

Section Main.
  Variables (fnm : string -> string -> bool) (isLetter : string -> bool) (rnd : nat -> nat).
  Variables (ord : list nat -> list nat) (ordm : bset -> list string) (thr : nat -> Qnum) (tol : Qnum) (fuel : nat).
  Hypothesis Hord : forall l, Permutation (ord l) l.
  Hypothesis Hordm : forall s, Permutation (ordm s) (elems s).
  Variables (g : opt_args) (ls : list layer) (kb : list string) (m : model Qnum) (stats : list (triad * Z)).
  Hypothesis Hkb : NoDup kb.
  Hypothesis Hd : mods_disjoint ls.
  Hypothesis Hmods : Forall (fun l => lmods l <> []) ls.
  Notation L := (layout_new ls).
  Definition weighted : list (triad * Q) := map (fun tv => (fst tv, inject_Z (snd tv))) (used_triads (g_limit g) stats).
  Notation pins := (expand_pins fnm kb (g_pins g)).

  Theorem optimize_spec out e :
    optimize fnm isLetter rnd ord ordm thr tol fuel g L kb m stats = Ok (out, e) ->
    exists bm0 start best fin e0 eb,
      apply_mutations kb (g_mutations g) (initial_map L kb isLetter) = Ok bm0 /\
      exchanges (if g_randomize g then 2 * List.length bm0 else 0) bm0 start /\
      one_to_one best /\ rearranged bm0 start /\ rearranged bm0 best /\ rearranged bm0 fin /\
      pins_kept pins bm0 best /\
      relabelled kb best ls (reread out) /\ layers_wf (reread out) /\
      costs L weighted m start e0 /\ costs L weighted m best eb /\ costs L weighted m fin e /\
      (eb <= e0)%Q /\ (eb <= e)%Q.
  Proof.
    unfold optimize. intros E. apply bind_Ok in E as (bm0 & Em & E).
    change (map (fun tv : triad * Z => (fst tv, nofZ (snd tv))) (used_triads (g_limit g) stats)) with weighted in E.
    apply bind_Ok in E as (u & _ & E). apply bind_Ok in E as (o & Eo & E).
    apply bind_Ok in E as ([start p] & Er & E). cbn [fst snd] in E. apply bind_Ok in E as (s & Es & E).
    apply bind_Ok in E as (mb' & Ebm & E). apply of_opt_Ok in Ebm.
    apply bind_Ok in E as (cf' & Ecf & E). apply of_opt_Ok in Ecf.
    apply bind_Ok in E as (mf' & Emf & E). apply of_opt_Ok in Emf.
    apply bind_Ok in E as (u1 & _ & E). apply bind_Ok in E as (c' & _ & E). apply bind_Ok in E as (u2 & _ & E).
    apply bind_Ok in E as (out' & Eout & E). injection E as <- <-.
    destruct (opt_new_Ok Eo) as [Hs Ho].
    pose proof (initial_one ls isLetter Hkb) as One.
    pose proof (mutations_rearranged (proj1 One) Em) as R0.
    pose proof (rearranged_one R0 One) as One0.
    assert (Hpins : o_pins o = pins) by (rewrite Ho; reflexivity).
    assert (Hlay : o_layout o = L) by (rewrite Ho; reflexivity).
    assert (Htri : o_triads o = weighted) by (rewrite Ho; reflexivity).
    assert (G0 : good o bm0 start).
    { destruct (g_randomize g).
      - eapply randomize_good; [exact (proj1 One0)| |exact Er]. split; [apply rearranged_refl|apply pins_kept_refl].
      - injection Er as <- <-. split; [apply rearranged_refl|apply pins_kept_refl]. }
    assert (Hs2t : stateToTriad (o_layout o) (o_triads o) = Ok (o_s2t o)) by (rewrite Hlay, Htri; exact Hs).
    assert (Ws : dict_wf start) by (eapply rearranged_wf; [exact (proj1 G0)|exact (proj1 One0)]).
    destruct (opt_run_spec Hs2t Hord Ws Es) as (cf & mf & cb & mb & e0 & Hf & Hb & Gf & Gb & If & Ib & Mf & Mb & C0 & F1 & F2 & L1 & L2).
    destruct Hf as [Hf1 Hf2], Hb as [Hb1 Hb2].
    assert (mb' = mb) as -> by congruence. assert (cf' = cf) as -> by congruence.
    assert (Rb : rearranged bm0 mb) by (eapply rearranged_trans; [exact (proj1 G0)|exact (proj1 Gb)]).
    pose proof (rearranged_one Rb One0) as Oneb.
    assert (Rng : Forall (fun k : key => fst k < List.length ls) (dkeys mb)).
    { rewrite (proj1 Rb), (proj1 R0). apply initial_range. exact Hkb. }
    destruct (reread_ok kb Hordm Hd Hmods Oneb Rng) as (out2 & Eout2 & Rel & Wf).
    assert (out' = out2) as -> by congruence.
    exists bm0, start, mb, mf, e0, (reffort cb).
    pose proof (in_step_costs If) as Cf. pose proof (in_step_costs Ib) as Cb. rewrite Mf in Cf. rewrite Mb in Cb.
    cbn [rmodel] in *. rewrite Hlay, Htri in *.
    split; [exact Em|]. split; [destruct (g_randomize g); [exact (randomize_exchanges Er)|injection Er as <- <-; constructor]|].
    split; [assumption|]. split; [exact (proj1 G0)|]. split; [assumption|].
    split; [eapply rearranged_trans; [exact (proj1 G0)|exact (proj1 Gf)]|].
    split; [rewrite <- Hpins; eapply pins_kept_trans; [exact (proj2 G0)|exact (proj2 Gb)]|].
    split; [assumption|]. split; [assumption|]. split; [assumption|]. split; [assumption|]. split; [assumption|]. split; assumption.
  Qed.
End Main.

(** * Nothing can go wrong but an endless search for a mutation *)
Section LoopRaise.
  Context {C M : Type}.
  Variable mutate : C -> M -> nat -> res (C * M * Qnum * nat).
  Variable thr : nat -> Qnum.
  Variable P : C -> M -> Prop.
  Hypothesis Hp : forall c m p c' m' d p', P c m -> mutate c m p = Ok (c', m', d, p') -> P c' m'.
  Variable ex : exn.
  Hypothesis Hr : forall c m p e, P c m -> mutate c m p = Raise e -> e = ex.
  Lemma loop_raise n : forall i s c m bc bm e, ainv s c m bc bm -> P c m ->
    anneal_loop (nm:=Qnum) mutate thr n i s = Raise e -> e = ex.
  Proof.
    induction n as [|n IH]; intros i s c m bc bm e I Hc; cbn [anneal_loop]; [discriminate|].
    assert (B : is_best [(bc, bm, snd (a_best s))] (bc, bm, snd (a_best s))).
    { split; [left; reflexivity|]. intros x [<-|[]] H. destruct strict_Q as [Ir _]. unfold below in H. rewrite Ir in H. discriminate. }
    destruct (mutate c m (a_pos s)) as [[[[c1 m1] d] p1]|e1] eqn:E.
    - destruct (accepts_dec thr i d (a_dmax s)) as [A|A].
      + destruct (step_accept strict_Q I B E A) as (s1 & bc1 & bm1 & -> & I1 & _). cbn [bind]. eauto.
      + destruct (step_reject I B E A) as (s1 & -> & I1 & _). cbn [bind]. eauto.
    - rewrite (step_raise thr i I E). cbn [bind]. intros [= <-]. eauto.
  Qed.
  Lemma run_raise n h r c m p e : holds h r c m -> P c m ->
    anneal_run (nm:=Qnum) mutate thr n h r p = Raise e -> e = ex.
  Proof.
    intros H Hc. unfold anneal_run. destruct (run_start mutate strict_Q p H) as (hb & -> & I & B). cbn [bind]. eapply loop_raise; eauto.
  Qed.
End LoopRaise.

Lemma bind_Raise {A B} (m : res A) (f : A -> res B) e : bind m f = Raise e -> m = Raise e \/ exists a, m = Ok a /\ f a = Raise e.
Proof. destruct m; cbn; [right; eauto|left; congruence]. Qed.

Lemma draw_raise {nm} (o : optimizer nm) rnd bm : o_all o = dkeys bm -> o_all o <> [] ->
  forall fuel p e, draw o rnd fuel bm p = Raise e -> e = OutOfFuel.
Proof.
  intros Ha Hne. induction fuel as [|fuel IH]; intros p e; cbn [draw]; [congruence|].
  destruct (choice_total rnd p Hne) as (a & Ea). destruct (choice_total rnd (S p) Hne) as (b & Eb).
  rewrite Ea, Eb; cbn [bind].
  destruct (@accept_total _ o bm a b) as (ok & Eo); [rewrite <- Ha; eapply choice_In; eauto|rewrite <- Ha; eapply choice_In; eauto|].
  rewrite Eo; cbn [bind]. destruct ok; [discriminate|]. apply IH.
Qed.

(** A combination presses the key (i, b): one of the modifiers of layer i together with b. *)
Definition presses (ls : list layer) (c : comb) (k : key) : Prop :=
  exists l, nth_error ls (fst k) = Some l /\ In (cmod c) (lmods l) /\ cbtn c = frozenset [snd k].
Lemma presses_key_of ls c k : mods_disjoint ls -> presses ls c k -> key_of (layout_new ls) c = Ok k.
Proof.
  intros Hd (l & Hl & Hm & Hb). unfold key_of.
  destruct (modifierToLayer_some ls (cmod c)) as ([i' l'] & E); [exists l; split; [eapply nth_error_In; eauto|assumption]|].
  pose proof E as E'. apply modifierToLayer_ok in E'. destruct E' as (Hl' & Hm' & _).
  assert (i' = fst k) as -> by (eapply Hd; eauto).
  rewrite E. cbn [bind]. rewrite Hb, frozenset_single. cbn. destruct k; reflexivity.
Qed.

Lemma insert_desc_perm {A} (x : A * Z) l : Permutation (insert_desc x l) (x :: l).
Proof.
  induction l as [|y l IH]; cbn; [reflexivity|]. destruct (_ <? _)%Z; [reflexivity|].
  rewrite IH. apply perm_swap.
Qed.
Lemma sort_desc_perm {A} (l : list (A * Z)) : Permutation (sort_desc l) l.
Proof.
  unfold sort_desc. assert (H : forall acc, Permutation (fold_left (fun acc x => insert_desc x acc) l acc) (l ++ acc)).
  { induction l as [|x l IH]; intros acc; cbn; [reflexivity|]. rewrite IH, insert_desc_perm. symmetry. apply Permutation_middle. }
  rewrite H, app_nil_r. reflexivity.
Qed.
Lemma used_In {A} n (l : list (A * Z)) x : In x (used_triads n l) -> In x l.
Proof.
  unfold used_triads. intros H. assert (G : In x (sort_desc l)).
  { destruct (0 <? n)%Z; [|assumption]. rewrite <- (firstn_skipn (Z.to_nat n)). apply in_or_app; auto. }
  exact (Permutation_in _ (sort_desc_perm l) G).
Qed.

Lemma Q_close (x y tol : Q) : (x == y)%Q -> (0 < tol)%Q ->
  nltb (n:=Qnum) (nabs (nm:=Qnum) (nsub (n:=Qnum) x y)) tol = true.
Proof.
  intros Eq Htol. assert (Z : (x - y == 0)%Q) by (rewrite Eq; ring).
  apply (proj2 (nltb_Q _ _)). unfold nabs. cbn [nsub nofZ Qnum]. destruct (nltb _ _).
  - rewrite Z. exact Htol.
  - rewrite Z. exact Htol.
Qed.
Section Safe.
  Variables (fnm : string -> string -> bool) (isLetter : string -> bool) (rnd : nat -> nat).
  Variables (ord : list nat -> list nat) (ordm : bset -> list string) (thr : nat -> Qnum) (tol : Qnum) (fuel : nat).
  Hypothesis Hord : forall l, Permutation (ord l) l.
  Hypothesis Hordm : forall s, Permutation (ordm s) (elems s).
  Variables (g : opt_args) (ls : list layer) (kb : list string) (m : model Qnum) (stats : list (triad * Z)).
  Hypothesis Hkb : NoDup kb.
  Hypothesis Hd : mods_disjoint ls.
  Hypothesis Hmods : Forall (fun l => lmods l <> []) ls.
  Hypothesis Htol : (0 < tol)%Q.
  Notation L := (layout_new ls).
  Variable bm0 : bmap.
  Hypothesis Hmut : apply_mutations kb (g_mutations g) (initial_map L kb isLetter) = Ok bm0.
  Hypothesis Hne : bm0 <> [].
  Hypothesis Hinit : initCheck m = Ok tt.
  (** All triads consist of three combinations that press mapped keys. *)
  Hypothesis Htri : forall tv, In tv stats -> List.length (fst tv) = 3 /\
    forall c, In c (fst tv) -> exists k, presses ls c k /\ In k (dkeys bm0).
  (** Combinations of first modifiers and mapped keys can be scored. *)
  Hypothesis Hscore : forall t, List.length t = 3 ->
    (forall c, In c t -> exists k l ms, In k (dkeys bm0) /\ nth_error ls (fst k) = Some l /\
       lmods l = cmod c :: ms /\ cbtn c = frozenset [snd k]) ->
    exists e, triadCompute m t = Ok e.
  Notation pins := (expand_pins fnm kb (g_pins g)).

  Lemma bm0_one : one_to_one bm0 /\ Forall (fun k : key => fst k < List.length ls) (dkeys bm0).
  Proof.
    pose proof (initial_one ls isLetter Hkb) as One.
    pose proof (mutations_rearranged (proj1 One) Hmut) as R0. split; [eapply rearranged_one; eauto|].
    rewrite (proj1 R0). apply initial_range. exact Hkb.
  Qed.
  Lemma all_fine (o : optimizer Qnum) bm : o_layout o = L -> rearranged bm0 bm -> Forall (tfine o m bm) (weighted g stats).
  Proof.
    intros Hl R. destruct bm0_one as [One Rng]. unfold weighted. apply Forall_map, Forall_forall. intros tv Htv.
    apply used_In in Htv. destruct (Htri Htv) as [Hlen Hk].
    assert (Hmap : exists t', mapTriad o bm (fst tv) = Ok t' /\ Forall (fun c => exists k l ms, In k (dkeys bm0) /\ nth_error ls (fst k) = Some l /\
       lmods l = cmod c :: ms /\ cbtn c = frozenset [snd k]) t').
    { unfold mapTriad. rewrite Hl. clear Hlen Htv. induction (fst tv) as [|c t IH]; [exists []; split; [reflexivity|constructor]|].
      destruct IH as (t' & Et & Ft); [intros; apply Hk; right; assumption|].
      destruct (Hk c (or_introl eq_refl)) as (k & Pk & Ink).
      cbn [mapM]. rewrite mapButton_alt, (presses_key_of Hd Pk). cbn [bind].
      rewrite <- (proj1 R) in Ink. apply dget_key in Ink as (t1 & Et1). unfold dgetM. rewrite Et1. cbn [of_opt bind].
      pose proof (rearranged_one R One) as Oneb.
      pose proof (one_vals_key Oneb Et1) as Ink1. rewrite (proj1 R) in Ink1.
      pose proof (proj1 (Forall_forall _ _) Rng _ Ink1) as Hr.
      unfold comb_at. rewrite layout_new_layers.
      destruct (nth_error ls (fst t1)) as [l|] eqn:El; [|apply nth_error_None in El; cbn in Hr; lia]. cbn [of_opt bind].
      pose proof (proj1 (Forall_forall _ _) Hmods l (nth_error_In _ _ El)) as Hm.
      destruct (lmods l) as [|m0 ms] eqn:Em; [congruence|]. cbn [hd_error of_opt bind]. rewrite Et. cbn [bind].
      eexists. split; [reflexivity|]. constructor; [|assumption]. exists t1, l, ms. auto. }
    destruct Hmap as (t' & Et & Ft). unfold tfine. cbn [fst]. rewrite Et.
    destruct (@Hscore t') as (e & Ee).
    - pose proof (mapM_Ok_inv _ _ _ Et) as F2. apply Forall2_length in F2. congruence.
    - rewrite Forall_forall in Ft. exact Ft.
    - exists t', e. split; [reflexivity|assumption].
  Qed.

  Lemma s2t_ok : exists s, stateToTriad (nm:=Qnum) L (weighted g stats) = Ok s.
  Proof.
    unfold stateToTriad.
    assert (H : forall (its : list (nat * (triad * carrier Qnum))) d, (forall it, In it its -> In (snd it) (weighted g stats)) ->
      exists s, foldM (fun d it => foldM (s2t_comb L (fst it)) (fst (snd it)) d) its d = Ok s).
    { induction its as [|[i tv] its IH]; intros d Hin; cbn [foldM]; [eauto|]. cbn [fst snd].
      assert (G : exists s, foldM (s2t_comb L i) (fst tv) d = Ok s).
      { pose proof (Hin _ (or_introl eq_refl)) as Htv. cbn [snd] in Htv. unfold weighted in Htv.
        apply in_map_iff in Htv as (tv0 & <- & Htv). apply used_In in Htv. destruct (Htri Htv) as [_ Hk]. cbn [fst].
        clear - Hk Hd. revert d. induction (fst tv0) as [|c t IHt]; intros d; cbn [foldM]; [eauto|].
        destruct (Hk c (or_introl eq_refl)) as (k & Pk & _). rewrite s2t_comb_alt, (presses_key_of Hd Pk). cbn [bind].
        apply IHt. intros; apply Hk; right; assumption. }
      destruct G as (s & G). match goal with |- exists s, bind ?x _ = _ => change x with (foldM (s2t_comb L i) (fst tv) d) end. rewrite G. cbn [bind]. apply IH. intros; apply Hin; right; assumption. }
    apply H. intros [i tv] Hit. cbn [snd]. apply enumerate_nth in Hit. eapply nth_error_In; eauto.
  Qed.
  Lemma mutate_raise (o : optimizer Qnum) c bm p e : o_layout o = L -> o_triads o = weighted g stats -> o_all o = dkeys bm0 ->
    stateToTriad (o_layout o) (o_triads o) = Ok (o_s2t o) -> in_step o c bm -> rmodel c = m -> rearranged bm0 bm ->
    mutate o rnd ord fuel c bm p = Raise e -> e = OutOfFuel.
  Proof.
    intros Hl Ht Ha Hs I M R E.
    destruct (draw o rnd fuel bm p) as [[[a b] p']|e'] eqn:Ed.
    - destruct (mutate_no_raise Hs Hord I Ed) as (c' & bm' & d & E').
      { intros bm' Es. assert (R' : rearranged bm0 bm').
        { eapply rearranged_trans; [exact R|]. eapply swap_rearranged; [|exact Es]. eapply rearranged_wf; [exact R|]. exact (proj1 (proj1 bm0_one)). }
        intros i Hi. pose proof (all_fine Hl R') as F. rewrite <- Ht in F. rewrite Forall_forall in F.
        apply nth_error_Some in Hi. destruct (nth_error (o_triads o) i) as [tv|] eqn:Et; [|congruence].
        destruct (F tv (nth_error_In _ _ Et)) as (t & e1 & H1 & H2). exists tv, t, e1. rewrite M. auto. }
      congruence.
    - unfold mutate in E. rewrite Ed in E. cbn [bind] in E. injection E as <-.
      eapply draw_raise; [| |exact Ed].
      + rewrite Ha. symmetry. exact (proj1 R).
      + rewrite Ha. intros C. apply Hne. unfold dkeys in C. destruct bm0; [reflexivity|discriminate].
  Qed.

  Theorem optimize_raise e :
    optimize fnm isLetter rnd ord ordm thr tol fuel g L kb m stats = Raise e -> e = OutOfFuel.
  Proof.
    destruct bm0_one as [One0 Rng].
    unfold optimize. rewrite Hmut. cbn [bind].
    change (map (fun tv : triad * Z => (fst tv, nofZ (snd tv))) (used_triads (g_limit g) stats)) with (weighted g stats).
    rewrite Hinit. cbn [bind]. unfold opt_new. destruct s2t_ok as (s2t & Hs). 
    match goal with |- context [@stateToTriad ?q ?l ?t] => change (@stateToTriad q l t) with (stateToTriad (nm:=Qnum) L (weighted g stats)) end.
    rewrite Hs. cbn [bind].
    set (o := mkOpt (nm:=Qnum) (weighted g stats) L pins (dkeys bm0) s2t).
    assert (Hs2t : stateToTriad (o_layout o) (o_triads o) = Ok (o_s2t o)) by exact Hs.
    assert (Hall : o_all o <> []).
    { unfold o; cbn. intros C. apply Hne. unfold dkeys in C. destruct bm0; [reflexivity|discriminate]. }
    intros E. apply bind_Raise in E as [E|([start p] & Er & E)].
    { destruct (g_randomize g); [|discriminate].
      assert (H : forall n bm p e, rearranged bm0 bm -> randomize rnd fuel o n bm p = Raise e -> e = OutOfFuel).
      { induction n as [|n IH]; intros bm p e1 R; cbn [randomize]; [discriminate|].
        intros E1. apply bind_Raise in E1 as [E1|([bm1 p1] & E1 & E2)].
        - unfold mutate_quick in E1. apply bind_Raise in E1 as [E1|([[a b] p1] & Ed & E1)].
          + eapply draw_raise; [|exact Hall|exact E1]. unfold o; cbn. symmetry. exact (proj1 R).
          + apply bind_Raise in E1 as [E1|(x & _ & E1)]; [|discriminate].
            destruct (draw_Ok Ed) as ((_ & _ & _ & ta & tb & Ga & Gb & _) & _).
            unfold swap, dgetM in E1. rewrite Ga, Gb in E1. discriminate.
        - cbn [fst snd] in E2. eapply IH; [|exact E2]. eapply rearranged_trans; [exact R|].
          refine (proj1 (mutate_quick_good (o:=o) _ _ E1)).
          + eapply rearranged_wf; [exact R|]. exact (proj1 One0).
          + split; [apply rearranged_refl|apply pins_kept_refl]. }
      eapply H; [|exact E]. apply rearranged_refl. }
    cbn [fst snd] in E.
    assert (G0 : good o bm0 start).
    { destruct (g_randomize g).
      - eapply randomize_good; [exact (proj1 One0)| |exact Er]. split; [apply rearranged_refl|apply pins_kept_refl].
      - injection Er as <- <-. split; [apply rearranged_refl|apply pins_kept_refl]. }
    assert (Ws : dict_wf start) by (eapply rearranged_wf; [exact (proj1 G0)|exact (proj1 One0)]).
    apply bind_Raise in E as [E|(s & Es & E)].
    { unfold opt_run in E. apply bind_Raise in E as [E|(c' & Ec & E)].
      - destruct (@reset_total o (mkR m (nofZ 0) (nofZ 0)) start) as (c' & Ec); [|congruence].
        apply (all_fine (o:=o) eq_refl (proj1 G0)).
      - destruct (reset_in_step Ec) as [I M]. cbn [rmodel] in M.
        eapply (run_raise (P:=fun c bm => in_step o c bm /\ rmodel c = m /\ rearranged bm0 bm)); [| | |exact I0 || idtac|exact E].
        + intros c bm p1 c1 bm1 d p2 (I1 & M1 & R1) Em. destruct (mutate_in_step Hs2t Hord I1 Em) as (I2 & M2 & _).
          split; [assumption|]. split; [congruence|]. eapply rearranged_trans; [exact R1|].
          refine (proj1 (mutate_good (o:=o) _ _ Em)).
          * eapply rearranged_wf; [exact R1|exact (proj1 One0)].
          * split; [apply rearranged_refl|apply pins_kept_refl].
        + intros c bm p1 e1 (I1 & M1 & R1) Em. eapply (mutate_raise (o:=o)); eauto.
        + split; reflexivity.
        + split; [assumption|]. split; [assumption|]. exact (proj1 G0). }
    destruct (opt_run_spec Hs2t Hord Ws Es) as (cf & mf & cb & mb & e0 & [Hf1 Hf2] & [Hb1 Hb2] & Gf & Gb & If & Ib & Mf & Mb & C0 & F1 & F2 & L1 & L2).
    rewrite Hb2, Hf1, Hf2 in E. cbn [of_opt bind] in E.
    assert (Rb : rearranged bm0 mb) by (eapply rearranged_trans; [exact (proj1 G0)|exact (proj1 Gb)]).
    assert (Rf : rearranged bm0 mf) by (eapply rearranged_trans; [exact (proj1 G0)|exact (proj1 Gf)]).
    pose proof (rearranged_one Rb One0) as Oneb.
    assert (Pl : forallb (fun k => mem k (dvals mb)) (dkeys mb) && forallb (fun v => mem v (dkeys mb)) (dvals mb) = true).
    { apply andb_true_iff. rewrite !forallb_forall. split; intros x Hx; apply mem_In.
      - exact (Permutation_in _ (proj2 Oneb) Hx).
      - exact (Permutation_in _ (Permutation_sym (proj2 Oneb)) Hx). }
    rewrite Pl in E. cbn [assert_ bind] in E.
    destruct (@reset_total o cf mf) as (c2 & Ec2).
    { cbn [rmodel] in Mf. rewrite Mf. apply (all_fine (o:=o) eq_refl Rf). }
    rewrite Ec2 in E. cbn [bind] in E.
    destruct (reset_in_step Ec2) as [I2 M2].
    pose proof (in_step_costs I2) as Cc. rewrite M2 in Cc. pose proof (costs_fun Cc (in_step_costs If)) as Eq.
    assert (Hlt : nltb (nabs (nsub (reffort c2) (reffort cf))) tol = true).
    { exact (Q_close Eq Htol). }
    rewrite Hlt in E. cbn [assert_ bind] in E.
    assert (Rngb : Forall (fun k : key => fst k < List.length ls) (dkeys mb)) by (rewrite (proj1 Rb); exact Rng).
    destruct (reread_ok kb Hordm Hd Hmods Oneb Rngb) as (out & Eout & _).
    rewrite Eout in E. discriminate.
  Qed.
End Safe.
