(** C93: comparing layouts. *)
From Verif Require Import Base LayoutModel LayoutSpec LayoutProofs WriterModel WriterSpec WriterProofs LayoutEq.
From Verif Require Import DataLayouts DataFingermap ShippedProofs PropsLayout PropsWriter.
Open Scope string_scope.
Open Scope list_scope.
Unset Implicit Arguments.

(** The same modifiers in the same order, and the same text for every button, in
    whatever order they are listed. *)
Definition alike_layer (l l' : layer) : Prop := lmods l = lmods l' /\ forall b, dget (llayout l) b = dget (llayout l') b.
Definition alike (ls ls' : list layer) : Prop := Forall2 alike_layer ls ls'.

Lemma cell_eqb_eq a b : cell_eqb a b = true <-> a = b.
Proof.
  destruct a, b; cbn [cell_eqb]; split; try congruence; try discriminate.
  - intros H. apply (proj1 (eqb_eq _ _)) in H. congruence.
  - intros [= ->]. apply (proj2 (eqb_eq _ _)). reflexivity.
Qed.
Lemma list_eqb_iff {A} (e : A -> A -> bool) (R : A -> A -> Prop) (P : A -> Prop) l l' :
  (forall x y, P x -> P y -> (e x y = true <-> R x y)) -> Forall P l -> Forall P l' -> (list_eqb e l l' = true <-> Forall2 R l l').
Proof.
  intros H. revert l'. induction l as [|x l IH]; intros [|y l'] F F'; cbn [list_eqb].
  - split; [constructor|reflexivity].
  - split; [discriminate|inversion 1].
  - split; [discriminate|inversion 1].
  - inversion F; inversion F'; subst. rewrite andb_true_iff, H, IH by assumption. split; [intros [? ?]; constructor; assumption|inversion 1; auto].
Qed.
Lemma dict_eqb_iff d d' : dict_wf d -> dict_wf d' -> (dict_eqb d d' = true <-> forall b, dget d b = dget d' b).
Proof.
  intros W W'. unfold dict_eqb. rewrite andb_true_iff, Nat.eqb_eq, forallb_forall. split.
  - intros [Hl H].
    assert (I : incl d d').
    { intros [k v] Ik. specialize (H _ Ik). cbn [fst snd] in H. destruct (dget d' k) as [v'|] eqn:E; [|discriminate H].
      apply cell_eqb_eq in H. subst v'. apply dget_In, E. }
    assert (N : NoDup d) by (apply (NoDup_map_inv fst), W).
    assert (I' : incl d' d) by (apply NoDup_length_incl; [exact N|rewrite Hl; apply le_n|exact I]).
    intros b. destruct (dget d b) as [v|] eqn:E.
    + apply dget_In in E. apply I in E. symmetry. apply dget_In_iff; assumption.
    + destruct (dget d' b) as [v'|] eqn:E'; [|reflexivity]. apply dget_In in E'. apply I' in E'. apply dget_In_iff in E'; [congruence|exact W].
  - intros H. 
    assert (I : incl d d') by (intros [k v] Ik; apply dget_In_iff in Ik; [|exact W]; rewrite H in Ik; apply dget_In, Ik).
    assert (I' : incl d' d) by (intros [k v] Ik; apply dget_In_iff in Ik; [|exact W']; rewrite <- H in Ik; apply dget_In, Ik).
    split.
    + apply Nat.le_antisymm; apply NoDup_incl_length; try assumption; apply (NoDup_map_inv fst); assumption.
    + intros [k v] Ik. cbn [fst snd]. apply dget_In_iff in Ik; [|exact W]. rewrite H in Ik. rewrite Ik. apply cell_eqb_eq. reflexivity.
Qed.
Lemma mods_eqb (l l' : list bset) : list_eqb eqb l l' = true <-> l = l'.
Proof.
  rewrite (list_eqb_iff eqb eq (fun _ => True)).
  - split; [induction 1; congruence|intros <-; induction l; constructor; auto].
  - intros x y _ _. split; [apply (proj1 (eqb_eq _ _))|apply (proj2 (eqb_eq _ _))].
  - apply Forall_forall. auto.
  - apply Forall_forall. auto.
Qed.
Lemma layers_eqb_iff ls ls' : layers_wf ls -> layers_wf ls' -> (list_eqb layer_eqb ls ls' = true <-> alike ls ls').
Proof.
  apply list_eqb_iff. intros l l' W W'. unfold layer_eqb, alike_layer. rewrite andb_true_iff, mods_eqb, dict_eqb_iff by assumption. reflexivity.
Qed.
(** == compares what the layouts say, and neither names nor the order of buttons. *)
Theorem C93_equal ls ls' : layers_wf ls -> layers_wf ls' -> (layout_eqb (layout_new ls) (layout_new ls') = true <-> alike ls ls').
Proof. intros W W'. unfold layout_eqb. rewrite !layout_new_layers. apply layers_eqb_iff; assumption. Qed.
Theorem C93_generic g g' : layers_wf (glayers g) -> layers_wf (glayers g') -> (generic_eqb g g' = true <-> alike (glayers g) (glayers g')).
Proof. apply layers_eqb_iff. Qed.
(** An equivalence *)
Lemma alike_refl ls : alike ls ls.
Proof. induction ls; constructor; [split; auto|assumption]. Qed.
Lemma alike_sym ls ls' : alike ls ls' -> alike ls' ls.
Proof. induction 1 as [|l l' ls ls' [H1 H2] _ IH]; constructor; [split; auto|exact IH]. Qed.
Lemma alike_trans a b c : alike a b -> alike b c -> alike a c.
Proof.
  intros H. revert c. induction H as [|l l' ls ls' [H1 H2] _ IH]; intros c Hc; inversion Hc as [|? l'' ? ls'' [K1 K2] Hc']; subst; constructor.
  - split; [congruence|intros x; rewrite H2; apply K2].
  - apply IH, Hc'.
Qed.
Theorem C93_equivalence g g' g'' : layers_wf (glayers g) -> layers_wf (glayers g') -> layers_wf (glayers g'') ->
  generic_eqb g g = true /\ (generic_eqb g g' = generic_eqb g' g) /\ (generic_eqb g g' = true -> generic_eqb g' g'' = true -> generic_eqb g g'' = true).
Proof.
  intros W W' W''. split; [apply layers_eqb_iff; auto using alike_refl|]. split.
  - apply eq_iff_eq_true. unfold generic_eqb. rewrite !layers_eqb_iff by assumption. split; apply alike_sym.
  - unfold generic_eqb. rewrite !layers_eqb_iff by assumption. apply alike_trans.
Qed.

(** * What equal layouts have in common *)
Lemma alike_perm l l' : dict_wf (llayout l) -> dict_wf (llayout l') -> alike_layer l l' -> Permutation (llayout l) (llayout l').
Proof.
  intros W W' [_ H]. apply NoDup_Permutation; [apply (NoDup_map_inv fst), W|apply (NoDup_map_inv fst), W'|].
  intros [k v]. rewrite <- !dget_In_iff by assumption. rewrite H. reflexivity.
Qed.
Lemma alike_In ls ls' l : alike ls ls' -> In l ls -> exists l', In l' ls' /\ alike_layer l l'.
Proof. induction 1 as [|x y ls ls' H _ IH]; [intros []|]. intros [<-|I]; [exists y; cbn; auto|]. destruct (IH I) as (l' & I' & H'). exists l'. cbn. auto. Qed.
Lemma alike_assigned ls ls' t : alike ls ls' -> layers_wf ls -> assigned ls t -> assigned ls' t.
Proof.
  intros A W (b & l & Il & Ib). destruct (alike_In _ _ _ A Il) as (l' & Il' & _ & H). exists b, l'. split; [exact Il'|].
  unfold layers_wf in W. rewrite Forall_forall in W. apply dget_In_iff in Ib; [|apply W, Il]. rewrite H in Ib. apply dget_In, Ib.
Qed.
Lemma ways_perm ls ls' t : alike ls ls' -> layers_wf ls -> layers_wf ls' -> Permutation (ways ls t) (ways ls' t).
Proof.
  unfold ways. intros A. induction A as [|l l' ls ls' H A IH]; intros W W'; [reflexivity|]. inversion W; inversion W'; subst. cbn [flat_map].
  apply Permutation_app; [|apply IH; assumption]. destruct H as [E H]. rewrite E.
  apply Permutation_flat_map. apply alike_perm; [assumption..|]. split; assumption.
Qed.
Lemma alike_nth ls ls' i : alike ls ls' ->
  match nth_error ls i, nth_error ls' i with Some l, Some l' => alike_layer l l' | None, None => True | _, _ => False end.
Proof. intros A. revert i. induction A as [|l l' ls ls' H _ IH]; intros [|i]; cbn [nth_error]; auto. apply IH. Qed.
Lemma alike_m2l ls ls' m i l : alike ls ls' -> modifierToLayer (layout_new ls) m = Ok (i, l) ->
  exists l', modifierToLayer (layout_new ls') m = Ok (i, l') /\ alike_layer l l'.
Proof.
  intros A E. apply modifierToLayer_ok in E as (En & Im & Hl). pose proof (alike_nth _ _ i A) as H. rewrite En in H.
  destruct (nth_error ls' i) as [l'|] eqn:En'; [|destruct H]. exists l'. split; [|exact H]. apply modifierToLayer_ok.
  split; [exact En'|]. split; [rewrite <- (proj1 H); exact Im|]. intros j k' Hj Ek'. pose proof (alike_nth _ _ j A) as K. rewrite Ek' in K.
  destruct (nth_error ls j) as [k|] eqn:Ek; [|destruct K]. rewrite <- (proj1 K). exact (Hl j k Hj Ek).
Qed.
Lemma alike_longest ls ls' buf t : alike ls ls' -> layers_wf ls -> layers_wf ls' -> longest_assigned ls buf t -> longest_assigned ls' buf t.
Proof.
  intros A W W' (Ha & Hr & Hm). split; [eapply alike_assigned; eassumption|]. split; [exact Hr|].
  intros t' Ht'. apply Hm. eapply alike_assigned; [apply alike_sym, A|exact W'|exact Ht'].
Qed.
Lemma alike_unmapped ls ls' buf : alike ls ls' -> layers_wf ls' -> unmapped ls buf -> unmapped ls' buf.
Proof. intros A W' H t Ht. apply H. eapply alike_assigned; [apply alike_sym, A|exact W'|exact Ht]. Qed.
Lemma alike_buf ls ls' : alike ls ls' -> layers_wf ls -> layers_wf ls' -> bufferLen (layout_new ls) = bufferLen (layout_new ls').
Proof.
  assert (G : forall ls ls', alike ls ls' -> layers_wf ls -> bufferLen (layout_new ls) <= bufferLen (layout_new ls')).
  { intros a b A W. destruct (bufferLen_attained a) as [E|(t & Ht & E)]; [lia|]. rewrite <- E. apply bufferLen_ge. eapply alike_assigned; eassumption. }
  intros A W W'. apply Nat.le_antisymm; apply G; auto using alike_sym.
Qed.

(** The same up to the order in which ways to type a text are listed. *)
Definition same_answer (a b : res (text * list comb)) : Prop :=
  match a, b with
  | Ok (t, cs), Ok (t', cs') => t = t' /\ Permutation cs cs'
  | Raise e, Raise e' => e = e'
  | _, _ => False
  end.
Definition same_layer (a b : res (nat * layer)) : Prop :=
  match a, b with
  | Ok (i, l), Ok (i', l') => i = i' /\ alike_layer l l'
  | Raise e, Raise e' => e = e'
  | _, _ => False
  end.
Lemma same_layer_alike ls ls' m : alike ls ls' -> same_layer (modifierToLayer (layout_new ls) m) (modifierToLayer (layout_new ls') m).
Proof.
  intros A. unfold same_layer.
  destruct (modifierToLayer (layout_new ls) m) as [[i l]|e] eqn:E.
  - destruct (alike_m2l _ _ _ _ _ A E) as (l' & -> & H). auto.
  - destruct (modifierToLayer (layout_new ls') m) as [[i l]|e'] eqn:E'.
    + destruct (alike_m2l _ _ _ _ _ (alike_sym _ _ A) E') as (l' & E2 & H). rewrite E2 in E. discriminate E.
    + apply modifierToLayer_error in E as [-> _]. apply modifierToLayer_error in E' as [-> _]. reflexivity.
Qed.
Theorem C93_lookups ls ls' : layers_wf ls -> layers_wf ls' -> layout_eqb (layout_new ls) (layout_new ls') = true ->
  (forall m, isModifier (layout_new ls) m = isModifier (layout_new ls') m) /\
  (forall m, same_layer (modifierToLayer (layout_new ls) m) (modifierToLayer (layout_new ls') m)) /\
  (forall c, getText (layout_new ls) c = getText (layout_new ls') c) /\
  (forall b, getButtonText (layout_new ls) b = getButtonText (layout_new ls') b) /\
  bufferLen (layout_new ls) = bufferLen (layout_new ls') /\
  (forall buf, same_answer (lookup (layout_new ls) buf) (lookup (layout_new ls') buf)).
Proof.
  intros W W' E. apply C93_equal in E; [|exact W|exact W']. rename E into A.
  assert (M : forall m, same_layer (modifierToLayer (layout_new ls) m) (modifierToLayer (layout_new ls') m)) by (intros m; apply same_layer_alike, A).
  split; [|split; [exact M|split; [|split; [|split; [apply alike_buf; assumption|]]]]].
  - intros m. apply eq_iff_eq_true. rewrite !isModifier_spec. split; intros (l & Il & Im).
    + destruct (alike_In _ _ _ A Il) as (l' & Il' & H & _). exists l'. rewrite <- H. auto.
    + destruct (alike_In _ _ _ (alike_sym _ _ A) Il) as (l' & Il' & H & _). exists l'. rewrite <- H. auto.
  - intros c. unfold getText. specialize (M (cmod c)). unfold same_layer in M.
    destruct (modifierToLayer (layout_new ls) (cmod c)) as [[i l]|e], (modifierToLayer (layout_new ls') (cmod c)) as [[i' l']|e']; try contradiction; cbn [bind snd].
    + destruct M as (_ & _ & H). destruct (first (elems (cbtn c))) as [b|e]; cbn [bind]; [|reflexivity]. unfold dgetM. rewrite H. reflexivity.
    + congruence.
  - intros b. unfold getButtonText. rewrite !layout_new_layers. clear - A. induction A as [|l l' ls ls' [_ H] _ IH]; cbn [map]; [reflexivity|]. rewrite H, IH. reflexivity.
  - intros buf. unfold same_answer. destruct (lookup (layout_new ls) buf) as [[t cs]|e] eqn:E.
    + apply lookup_ok in E as [L ->]. pose proof (alike_longest _ _ _ _ A W W' L) as L'.
      rewrite (proj2 (lookup_ok _ _ _ _) (conj L' eq_refl)). split; [reflexivity|]. apply ways_perm; assumption.
    + apply lookup_error in E as [-> U]. pose proof (alike_unmapped _ _ _ A W' U) as U'.
      rewrite (proj2 (lookup_error _ _ _) (conj eq_refl U')). reflexivity.
Qed.

(** * Typing *)
Lemma alike_greedy ls ls' t ts : alike ls ls' -> layers_wf ls -> layers_wf ls' -> greedy ls t ts -> greedy ls' t ts.
Proof. intros A W W'. induction 1; constructor; eauto using alike_longest, alike_unmapped. Qed.
Lemma alike_ok ls ls' : alike ls ls' -> layers_wf ls -> layers_wf ls' -> layers_ok ls -> layers_ok ls'.
Proof.
  intros A. induction A as [|l l' ls ls' [E H] A IH]; intros W W' Hok; [constructor|]. inversion W; inversion W'; inversion Hok as [|? ? [F1 F2] F]; subst.
  constructor; [|apply IH; assumption]. rewrite Forall_forall in *. split.
  - intros [b v] I. apply (F1 (b, v)). apply dget_In. rewrite H. apply dget_In_iff; assumption.
  - intros (b & t & I). rewrite <- E. apply F2. exists b, t. apply dget_In. rewrite H. apply dget_In_iff; assumption.
Qed.
Lemma alike_mentioned ls ls' : alike ls ls' -> layers_wf ls -> layers_wf ls' -> incl (mentioned ls) (mentioned ls').
Proof.
  unfold mentioned. intros A W W' x I. apply in_flat_map in I as (l & Il & I).
  assert (K : exists l', In l' ls' /\ alike_layer l l') by (eapply alike_In; eassumption). destruct K as (l' & Il' & E & H).
  apply in_flat_map. exists l'. split; [exact Il'|]. rewrite <- E. apply in_app_iff in I as [I|I]; apply in_app_iff; [left; exact I|right].
  apply in_map_iff in I as ([b v] & <- & I). cbn [fst]. unfold layers_wf in W. rewrite Forall_forall in W.
  apply dget_In_iff in I; [|apply W, Il]. rewrite H in I. apply dget_In in I. apply (in_map fst) in I. exact I.
Qed.
(** Every text is divided the same way. *)
Theorem C93_typed fm ls ls' last t : length fm < 128 -> layers_wf ls -> layers_wf ls' -> layers_ok ls -> fingered fm ls ->
  prev_fingered fm last -> layout_eqb (layout_new ls) (layout_new ls') = true ->
  map ev_token (fst (fst (type_text fm (layout_new ls) last t))) = map ev_token (fst (fst (type_text fm (layout_new ls') last t))).
Proof.
  intros Hs W W' Hok Hf Hp E. apply C93_equal in E; [|exact W|exact W']. rename E into A.
  destruct (bufferLen_attained ls) as [E|(x & Hx & _)].
  - rewrite !type_null; [reflexivity| |exact E]. rewrite <- (alike_buf _ _ A W W'). exact E.
  - apply (C12_unique ls' t).
    + eapply alike_greedy; [exact A|exact W|exact W'|]. apply C12_greedy; eauto.
    + apply C12_greedy; [exact Hs|eapply alike_ok; eassumption| | |exact Hp].
      * exists x. eapply alike_assigned; eassumption.
      * intros y Hy. apply Hf. eapply alike_mentioned; [apply alike_sym, A|exact W'|exact W|exact Hy].
Qed.

(** No layer has a text on two buttons. *)
Definition one_button (ls : list layer) : Prop :=
  forall l b b' t, In l ls -> In (b, CText t) (llayout l) -> In (b', CText t) (llayout l) -> b = b'.
Lemma flat_map_single {A B} (f : A -> list B) (l l' : list A) : NoDup l -> Permutation l l' ->
  (forall x y, In x l -> In y l -> f x <> [] -> f y <> [] -> x = y) -> flat_map f l = flat_map f l'.
Proof.
  assert (G : forall x l, NoDup l -> In x l -> (forall y, In y l -> f y <> [] -> y = x) -> flat_map f l = f x).
  { intros x l0 N. induction N as [|y l0 Ny N IH]; [intros []|]. intros I H. cbn [flat_map].
    destruct I as [<-|I].
    - assert (Z : flat_map f l0 = []).
      { clear IH N. induction l0 as [|z l0 IH]; [reflexivity|]. cbn [flat_map]. destruct (f z) as [|c cs] eqn:Ez.
        - cbn [app]. apply IH; [intros K; apply Ny; right; exact K|]. intros w [<-|Iw]; apply H; cbn; auto.
        - exfalso. apply Ny. left. apply H; [cbn; auto|congruence]. }
      rewrite Z. apply app_nil_r.
    - rewrite IH; [|exact I|intros w Iw; apply H; cbn; auto]. destruct (f y) as [|c cs] eqn:Ey; [reflexivity|].
      exfalso. apply Ny. rewrite (H y); [exact I|cbn; auto|congruence]. }
  intros N P H. assert (N' : NoDup l') by (eapply Permutation_NoDup; eassumption).
  destruct (flat_map f l) as [|c cs] eqn:E.
  - destruct (flat_map f l') as [|c' cs'] eqn:E'; [reflexivity|]. exfalso.
    assert (I : In c' (flat_map f l')) by (rewrite E'; cbn; auto). apply in_flat_map in I as (x & Ix & I).
    assert (I2 : In c' (flat_map f l)) by (apply in_flat_map; exists x; split; [eapply Permutation_in; [symmetry; exact P|exact Ix]|exact I]).
    rewrite E in I2. destruct I2.
  - assert (I : In c (flat_map f l)) by (rewrite E; cbn; auto). apply in_flat_map in I as (x & Ix & I).
    assert (Nx : f x <> []) by (intros Z; rewrite Z in I; destruct I).
    rewrite <- E, (G x l N Ix), (G x l' N'); auto.
    + eapply Permutation_in; eassumption.
    + intros y Iy Ny. apply H; auto. eapply Permutation_in; [symmetry; exact P|exact Iy].
Qed.
Lemma ways_same ls ls' t : alike ls ls' -> layers_wf ls -> layers_wf ls' -> one_button ls -> ways ls t = ways ls' t.
Proof.
  unfold ways. intros A. induction A as [|l l' ls ls' H A IH]; intros W W' O; [reflexivity|]. inversion W as [|? ? Wl]; inversion W' as [|? ? Wl']; subst. cbn [flat_map].
  f_equal; [|apply IH; [assumption..|intros k b b' u Ik; apply O; right; exact Ik]]. rewrite (proj1 H). apply flat_map_single.
  - apply (NoDup_map_inv fst), Wl.
  - apply alike_perm; assumption.
  - intros [b [u|]] [b' [u'|]] I I' N N'; cbn [snd fst] in N, N'; try (exfalso; auto; fail).
    destruct (eqb_spec t u) as [<-|]; [|exfalso; auto]. destruct (eqb_spec t u') as [<-|]; [|exfalso; auto].
    rewrite (O l b b' t); [reflexivity|left; reflexivity|exact I|exact I'].
Qed.
Lemma loop_same fm (R : Type) (read : R -> nat -> text * R) L L' fuel : bufferLen L = bufferLen L' -> (forall buf, lookup L buf = lookup L' buf) ->
  forall r buf last, type_loop fm R read L fuel r buf last = type_loop fm R read L' fuel r buf last.
Proof.
  intros B H. induction fuel as [|fuel IH]; intros r buf last; [reflexivity|]. cbn [type_loop]. rewrite B.
  destruct (read r _) as [s r']. destruct (buf ++ s) as [|ch rst]; [reflexivity|]. rewrite H.
  destruct (bind _ _) as [[m c]|[]]; try reflexivity; rewrite IH; reflexivity.
Qed.
(** With every text on one button of a layer exactly the same is typed from any file. *)
Theorem C93_events fm (R : Type) (read : R -> nat -> text * R) ls ls' fuel r buf last : layers_wf ls -> layers_wf ls' -> one_button ls ->
  layout_eqb (layout_new ls) (layout_new ls') = true ->
  type_loop fm R read (layout_new ls) fuel r buf last = type_loop fm R read (layout_new ls') fuel r buf last.
Proof.
  intros W W' O E. apply C93_equal in E; [|exact W|exact W']. apply loop_same; [apply alike_buf; assumption|]. intros b.
  destruct (lookup (layout_new ls) b) as [[t cs]|e] eqn:K; symmetry.
  - apply lookup_ok in K as [L ->]. apply lookup_ok. split; [eapply alike_longest; eassumption|apply ways_same; assumption].
  - apply lookup_error in K as [-> U]. apply lookup_error. split; [reflexivity|]. eapply alike_unmapped; eassumption.
Qed.
(** Otherwise the order decides: equal layouts do not always press the same buttons. *)
Definition spaces_lr : list layer := [mkLayer [frozenset []] [("Fl_space", CText [32%N]); ("Fr_space", CText [32%N])]].
Definition spaces_rl : list layer := [mkLayer [frozenset []] [("Fr_space", CText [32%N]); ("Fl_space", CText [32%N])]].
Lemma spaces_wf : layers_wf spaces_lr /\ layers_wf spaces_rl.
Proof. split; repeat constructor; cbn; intuition congruence. Qed.
Theorem C93_needs_one_button : exists ls ls' t, layers_wf ls /\ layers_wf ls' /\ layers_ok ls /\ fingered defaultFingermap ls /\
  layout_eqb (layout_new ls) (layout_new ls') = true /\
  type_text defaultFingermap (layout_new ls) None t <> type_text defaultFingermap (layout_new ls') None t.
Proof.
  exists spaces_lr, spaces_rl, [32%N]. split; [apply spaces_wf|]. split; [apply spaces_wf|]. split; [|split; [|split]].
  - repeat constructor; cbn; congruence.
  - apply inclb_ok. vm_compute. reflexivity.
  - vm_compute. reflexivity.
  - intros E. apply (f_equal (fun p => map (fun e => match e with EMatch _ c => elems (cbtn c) | ESkip _ => [] end) (fst (fst p)))) in E.
    vm_compute in E. discriminate E.
Qed.

(** * Files and keyboards *)
(** What is read back is equal to what was written. *)
Theorem C93_roundtrip ord g : (forall s, Permutation (ord s) (elems s)) -> layers_wf (glayers g) ->
  generic_eqb (generic_deserialize (generic_serialize ord g)) g = true.
Proof.
  intros Ho W. assert (E : glayers (generic_deserialize (generic_serialize ord g)) = glayers g).
  { cbn [generic_deserialize generic_serialize glayers gd_layout]. rewrite map_map. rewrite <- (map_id (glayers g)) at 2. apply map_ext. intros [ms d].
    cbn [lmods llayout ld_modifier ld_layer]. f_equal. rewrite map_map. rewrite <- (map_id ms) at 2. apply map_ext. intros s.
    apply bset_ext. intros x. rewrite In_frozenset. split; apply Permutation_in; [|symmetry]; apply Ho. }
  unfold generic_eqb. rewrite E. apply layers_eqb_iff; auto using alike_refl.
Qed.
(** Equal layouts fit the same keyboards and are equal on them. *)
Theorem C93_specialize ord ord' names g g' : (forall s, Permutation (ord s) (elems s)) -> (forall s, Permutation (ord' s) (elems s)) ->
  layers_wf (glayers g) -> layers_wf (glayers g') -> generic_eqb g g' = true ->
  match specialize ord names g, specialize ord' names g' with
  | Ok L, Ok L' => layout_eqb L L' = true /\ incl (mentioned (glayers g)) names
  | Raise e, Raise e' => e = KeyError /\ e' = KeyError /\ ~ incl (mentioned (glayers g)) names
  | _, _ => False
  end.
Proof.
  intros Ho Ho' W W' E. pose proof (proj1 (C93_generic g g' W W') E) as A.
  assert (D : incl (mentioned (glayers g)) names \/ ~ incl (mentioned (glayers g)) names).
  { destruct (forallb (fun x => mem x names) (mentioned (glayers g))) eqn:F.
    - left. intros x Ix. apply mem_In. exact (proj1 (forallb_forall _ _) F x Ix).
    - right. intros I. apply (proj2 (not_true_iff_false _)) in F. apply F, forallb_forall. intros x Ix. apply mem_In, I, Ix. }
  destruct D as [D|D].
  - rewrite (@specialize_ok ord names g Ho W D), (@specialize_ok ord' names g' Ho' W').
    + split; [|exact D]. apply C93_equal; assumption.
    + intros x Ix. apply D. eapply alike_mentioned; [apply alike_sym, A|exact W'|exact W|exact Ix].
  - rewrite (@specialize_error ord names g Ho D), (@specialize_error ord' names g' Ho').
    + auto.
    + intros I. apply D. intros x Ix. apply I. eapply alike_mentioned; [exact A|exact W|exact W'|exact Ix].
Qed.

Example C93_example :
  let g := mkGeneric "one" ex_layers in
  let swapped := [mkLayer [frozenset []] [("Dl3", COther); ("Dl2", CText [97%N; 98%N]); ("Dl1", CText [97%N])];
                  mkLayer [frozenset ["El_shift"]; frozenset ["Er_shift"]] [("Dl3", CText [97%N]); ("Dl1", CText [65%N])]] in
  layers_wf ex_layers /\ layers_wf swapped /\ layers_ok ex_layers /\ one_button ex_layers /\
  generic_eqb g (mkGeneric "two" swapped) = true /\
  (* other modifiers, another order of modifiers, another text, one button more, one button less *)
  map (fun l => generic_eqb g (mkGeneric "one" (firstn 1 ex_layers ++ [l])))
    [mkLayer [frozenset ["El_shift"]] [("Dl1", CText [65%N]); ("Dl3", CText [97%N])];
     mkLayer [frozenset ["Er_shift"]; frozenset ["El_shift"]] [("Dl1", CText [65%N]); ("Dl3", CText [97%N])];
     mkLayer [frozenset ["El_shift"]; frozenset ["Er_shift"]] [("Dl1", CText [65%N]); ("Dl3", CText [98%N])];
     mkLayer [frozenset ["El_shift"]; frozenset ["Er_shift"]] [("Dl1", CText [65%N]); ("Dl3", CText [97%N]); ("Dl4", COther)];
     mkLayer [frozenset ["El_shift"]; frozenset ["Er_shift"]] [("Dl1", CText [65%N])]] = [false; false; false; false; false] /\
  generic_eqb g (mkGeneric "one" (rev ex_layers)) = false.
Proof.
  cbn zeta. repeat match goal with |- _ /\ _ => split end; try (vm_compute; reflexivity).
  - repeat constructor; cbn; intuition congruence.
  - repeat constructor; cbn; intuition congruence.
  - repeat constructor; cbn; try congruence.
  - intros l b b' t [<-|[<-|[]]]; cbn [llayout In]; intuition congruence.
Qed.
(** The layouts of the repository differ from each other. *)
Theorem C93_shipped d d' : In d all_layouts -> In d' all_layouts ->
  layout_eqb (layout_new (shipped_layers d)) (layout_new (shipped_layers d')) = true -> d = d'.
Proof.
  assert (G : forallb (fun i => forallb (fun j => negb (list_eqb layer_eqb (nth i (map shipped_layers all_layouts) []) (nth j (map shipped_layers all_layouts) []))) (seq 0 i)) (seq 0 13) = true) by (vm_compute; reflexivity).
  assert (K : forall i j, i < 13 -> j < i -> list_eqb layer_eqb (nth i (map shipped_layers all_layouts) []) (nth j (map shipped_layers all_layouts) []) = false).
  { intros i j Hi Hj. apply negb_true_iff.
    exact (proj1 (forallb_forall _ _) (proj1 (forallb_forall _ _) G i (proj2 (in_seq _ _ _) (conj (Nat.le_0_l _) Hi))) j (proj2 (in_seq _ _ _) (conj (Nat.le_0_l _) Hj))). }
  clear G. intros I I' E.
  assert (Wd : layers_wf (shipped_layers d)) by apply (shipped_facts d I). assert (Wd' : layers_wf (shipped_layers d')) by apply (shipped_facts d' I').
  pose proof (proj1 (C93_equal _ _ Wd Wd') E) as A.
  assert (A1 : list_eqb layer_eqb (shipped_layers d) (shipped_layers d') = true) by (apply layers_eqb_iff; assumption).
  assert (A2 : list_eqb layer_eqb (shipped_layers d') (shipped_layers d) = true) by (apply layers_eqb_iff; auto using alike_sym).
  clear E A Wd Wd'.
  apply (In_nth _ _ d) in I as (i & Hi & Ei). apply (In_nth _ _ d) in I' as (j & Hj & Ej).
  assert (Len : List.length all_layouts = 13) by reflexivity.
  assert (N : forall k, k < List.length all_layouts -> nth k (map shipped_layers all_layouts) [] = shipped_layers (nth k all_layouts d)).
  { intros k Hk. rewrite (nth_indep _ [] (shipped_layers d)) by (rewrite map_length; exact Hk). apply map_nth. }
  destruct (Nat.lt_trichotomy i j) as [H|[H|H]].
  - exfalso. pose proof (K j i) as Q. rewrite (N i Hi), (N j Hj), Ei, Ej in Q. rewrite Q in A2; [discriminate A2|rewrite <- Len; exact Hj|exact H].
  - subst j. rewrite <- Ei. exact Ej.
  - exfalso. pose proof (K i j) as Q. rewrite (N i Hi), (N j Hj), Ei, Ej in Q. rewrite Q in A1; [discriminate A1|rewrite <- Len; exact Hi|exact H].
Qed.

Print Assumptions C93_equal.
Print Assumptions C93_generic.
Print Assumptions C93_equivalence.
Print Assumptions C93_lookups.
Print Assumptions C93_typed.
Print Assumptions C93_events.
Print Assumptions C93_needs_one_button.
Print Assumptions C93_roundtrip.
Print Assumptions C93_specialize.
Print Assumptions C93_shipped.
