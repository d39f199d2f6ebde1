From Coq Require Import QArith.
From Verif Require Import Base LayoutModel LayoutSpec LayoutProofs WriterModel WriterSpec WriterProofs StatsModel StatsSpec StatsProofs StatsAll WriterHands
  CarpalxModel CarpalxSpec CarpalxQ OptModel OptSpec OptProofs OptLayout OptMain RetypeSpec.
Close Scope Q_scope.
Set Implicit Arguments.
Open Scope string_scope.
Open Scope list_scope.

(** * Sums over counted occurrences *)
Lemma qsum_ext {A} (f g : A -> Q) l : (forall x, In x l -> f x == g x)%Q -> (qsum f l == qsum g l)%Q.
Proof.
  induction l as [|x l IH]; intros H; [reflexivity|]. cbn [qsum]. rewrite (H x (or_introl eq_refl)), IH; [reflexivity|].
  intros y Hy. apply H. now right.
Qed.
Lemma qsum_split {A} `{EqDec A} (f : A -> Q) k l :
  (qsum f l == inject_Z (count k l) * f k + qsum f (filter (fun x => negb (eqb k x)) l))%Q.
Proof.
  induction l as [|x l IH]; [cbn [qsum count filter]; ring|]. cbn [qsum count filter]. rewrite IH.
  destruct (eqb_spec k x) as [<-|N]; cbn [negb].
  - rewrite inject_Z_plus. ring.
  - cbn [qsum]. rewrite Z.add_0_l. ring.
Qed.
Lemma count_filter_ne {A} `{EqDec A} (k x : A) l : k <> x -> count x (filter (fun y => negb (eqb k y)) l) = count x l.
Proof.
  intros N. induction l as [|y l IH]; [reflexivity|]. cbn [filter count]. destruct (eqb_spec k y) as [<-|N']; cbn [negb].
  - rewrite IH. destruct (eqb_spec x k) as [E|_]; [congruence|]. lia.
  - cbn [count]. now rewrite IH.
Qed.
Lemma count_filter_eq {A} `{EqDec A} (k : A) l : count k (filter (fun y => negb (eqb k y)) l) = 0%Z.
Proof.
  induction l as [|y l IH]; [reflexivity|]. cbn [filter]. destruct (eqb_spec k y) as [<-|N']; cbn [negb]; [exact IH|].
  cbn [count]. destruct (eqb_spec k y); [contradiction|]. exact IH.
Qed.
Lemma qsum_counts {A} `{EqDec A} (f : A -> Q) (d : list (A * Z)) l : counts d (fun k => count k l) ->
  (qsum (fun kv => inject_Z (snd kv) * f (fst kv)) d == qsum f l)%Q.
Proof.
  revert l. induction d as [|[k v] d IH]; intros l [W C].
  - destruct l as [|x l]; [reflexivity|]. specialize (C x). cbn [dget] in C. pose proof (proj2 (count_pos x (x :: l)) (or_introl eq_refl)).
    destruct (Z.eqb_spec (count x (x :: l)) 0); [lia|discriminate].
  - inversion W as [|? ? Nk Wd]; subst. rewrite (qsum_split f k l). cbn [qsum fst snd].
    pose proof (C k) as Ck. cbn [dget] in Ck. rewrite eqb_refl in Ck.
    destruct (Z.eqb_spec (count k l) 0); [discriminate|]. injection Ck as ->.
    rewrite (IH (filter (fun x => negb (eqb k x)) l)); [reflexivity|]. split; [exact Wd|]. intros x.
    destruct (eqb_spec k x) as [<-|N].
    + rewrite count_filter_eq. cbn. now apply dget_None.
    + rewrite count_filter_ne by exact N. rewrite <- C. cbn [dget]. destruct (eqb_spec k x); [contradiction|].
      destruct (eqb_spec x k); [congruence|reflexivity].
Qed.
Lemma counts_keys {A} `{EqDec A} (d : list (A * Z)) l : counts d (fun k => count k l) -> forall k, In k (dkeys d) <-> In k l.
Proof. intros C k. rewrite (counts_mem k C), <- count_pos. pose proof (count_nonneg k l). lia. Qed.

Lemma qsum_Forall2 {A B} (R : A -> B -> Prop) (f : A -> Q) (g : B -> Q) l l' :
  Forall2 R l l' -> (forall x y, In x l -> R x y -> f x == g y)%Q -> (qsum f l == qsum g l')%Q.
Proof.
  induction 1 as [|x y l l' Hxy F IH]; intros Hf; [reflexivity|]. cbn [qsum]. rewrite (Hf x y (or_introl eq_refl) Hxy), IH; [reflexivity|].
  intros a b Ha. apply Hf. now right.
Qed.

(** * Events related one by one *)
Section Events.
  Variable R : comb -> comb -> Prop.
  Variable ok : comb -> bool.
  Hypothesis Rok : forall c c', R c c' -> ok c = ok c'.
  Inductive Rev : event -> event -> Prop :=
    | Rev_match u c c' : R c c' -> Rev (EMatch u c) (EMatch u c')
    | Rev_skip k : Rev (ESkip k) (ESkip k).
  Lemma Rev_stretches es es' : Forall2 Rev es es' -> Forall2 (Forall2 R) (stretches (map ev_obj es)) (stretches (map ev_obj es')).
  Proof.
    induction 1 as [|e e' es es' He F IH]; [cbn; constructor; constructor|]. destruct He as [u c c' Hc|k]; cbn [map ev_obj stretches].
    - inversion IH as [|s s' ss ss' Hs Hss]; subst; constructor; auto.
    - constructor; [constructor|exact IH].
  Qed.
  Lemma F2_filter l l' : Forall2 R l l' -> Forall2 (fun c c' => R c c' /\ ok c = true) (filter ok l) (filter ok l').
  Proof.
    induction 1 as [|c c' l l' Hc F IH]; [constructor|]. cbn [filter]. rewrite <- (Rok Hc). destruct (ok c) eqn:E; [constructor; auto|exact IH].
  Qed.
End Events.
Lemma F2_impl {A B} (R S : A -> B -> Prop) l l' : (forall x y, R x y -> S x y) -> Forall2 R l l' -> Forall2 S l l'.
Proof. intros H. induction 1; constructor; auto. Qed.
Lemma F2_windows {A B} (R : A -> B -> Prop) l l' : Forall2 R l l' -> Forall2 (Forall2 R) (windows l) (windows l').
Proof.
  induction 1 as [|a a' l l' Ha F IH]; [constructor|]. destruct F as [|b b' l l' Hb F]; [constructor|].
  destruct F as [|c c' l l' Hc F]; [constructor|].
  change (windows (a :: b :: c :: l)) with ([a; b; c] :: windows (b :: c :: l)).
  change (windows (a' :: b' :: c' :: l')) with ([a'; b'; c'] :: windows (b' :: c' :: l')).
  constructor; [auto|exact IH].
Qed.
Lemma F2_flat_map {A B C D} (R : A -> B -> Prop) (S : C -> D -> Prop) f g l l' :
  (forall x y, R x y -> Forall2 S (f x) (g y)) -> Forall2 R l l' -> Forall2 S (flat_map f l) (flat_map g l').
Proof. intros H. induction 1; cbn; [constructor|]. apply Forall2_app; auto. Qed.

(** Either all combinations are ignored, or one of them is not. *)
Lemma types_ways ls c u : layers_wf ls -> mods_disjoint ls -> types ls c u <-> In c (ways ls u).
Proof.
  intros W D. split.
  - intros [[b Eb] T]. destruct c as [m bs]. cbn [cbtn] in Eb. subst bs. now apply getText_ways.
  - intros H. apply in_ways in H as H'. destruct H' as (l & b & md & Hl & Hb & Hm & E). subst c.
    split; [exists b; reflexivity|]. apply getText_ways; assumption.
Qed.
Lemma spaces_or_not ls u : layers_wf ls -> mods_disjoint ls ->
  (forall c, types ls c u -> incl (elems (cbtn c)) space_keys) \/ (exists c, types ls c u /\ ~ incl (elems (cbtn c)) space_keys).
Proof.
  intros W D.
  assert (X : forall cs : list comb, (forall c, In c cs -> incl (elems (cbtn c)) space_keys) \/ (exists c, In c cs /\ ~ incl (elems (cbtn c)) space_keys)).
  { induction cs as [|c cs IH]; [left; intros c []|].
    destruct (forallb (fun b => mem b space_keys) (elems (cbtn c))) eqn:E.
    - destruct IH as [IH|(c' & H & N)]; [left|right; exists c'; cbn; auto]. intros c' [<-|H]; [|auto].
      rewrite forallb_forall in E. intros b Hb. apply mem_In. auto.
    - right. exists c. split; [now left|]. intros I. enough (forallb (fun b => mem b space_keys) (elems (cbtn c)) = true) by congruence.
      apply forallb_forall. intros b Hb. apply mem_In. auto. }
  destruct (X (ways ls u)) as [H|(c & H & N)]; [left|right; exists c]; [intros c Hc; apply H; now apply types_ways|split; [now apply types_ways|exact N]].
Qed.

(** * What typing leaves in the statistics *)
Definition occurrences (ls : list layer) fm (t : text) : list triad :=
  flat_map (fun s => windows (filter (counted spaces) s)) (stretches (map ev_obj (fst (fst (type_text fm (layout_new ls) None t))))).
Lemma events_ways fm ls t : layers_ok ls -> (exists u, assigned ls u) ->
  Forall (fun e => match e with EMatch m c => In c (ways ls m) | ESkip _ => True end) (fst (fst (type_text fm (layout_new ls) None t))).
Proof.
  intros Hok Hex. destruct (@type_coverage fm text read_full (fun t => t) ls) with (fuel := S (List.length t)) (r := t) (buf := @nil N) (last := @None comb)
    as (es & l & E & _ & Hf); auto using full_reads_file, read_full_ok; [cbn; lia..|]. unfold type_text. rewrite E. exact Hf.
Qed.
Lemma typed_ok fm kb ls t : incl space_keys kb -> layers_ok ls -> (exists u, assigned ls u) ->
  exists ts, typed_triads fm kb ls t = Ok ts /\ counts ts (fun k => count k (occurrences ls fm t)).
Proof.
  intros Hi Hok Hex. pose proof (events_ways fm t Hok Hex) as F. unfold typed_triads, occurrences.
  revert F. generalize (fst (fst (type_text fm (layout_new ls) None t))) as es. intros es F.
  assert (Hs : Forall single (map ev_obj es)).
  { apply Forall_map. eapply Forall_impl; [|exact F]. intros [m c|k] H; [|exact I]. cbn.
    apply in_ways in H as (l & b & md & _ & _ & _ & ->). exists b. reflexivity. }
  destruct (@triads_inv spaces _ Hs) as (s & E & _ & _ & C).
  assert (Ei : triads_init kb = Ok (mkTriads [] [] spaces)) by (apply triads_init_ok, Hi).
  rewrite Ei. cbn [bind]. rewrite E. cbn [bind]. eauto.
Qed.

Section Retype.
  Variables (fm : list (string * (direction * finger))) (kb : list string) (bm : bmap) (ls ls' : list layer).
  Hypothesis Hfm : List.length fm < 128.
  Hypothesis Hspaces : incl space_keys kb.
  Hypothesis Hok : layers_ok ls.
  Hypothesis Hmods : Forall (fun l => lmods l <> []) ls.
  Hypothesis Hwf : layers_wf ls.
  Hypothesis Hwf' : layers_wf ls'.
  Hypothesis Hd : mods_disjoint ls.
  Hypothesis Hkb : Forall (fun l => Forall (fun b => In b kb) (dkeys (llayout l))) ls.
  Hypothesis Hfing : fingered fm ls.
  Hypothesis Hone : one_to_one bm.
  Hypothesis Hrel : relabelled kb bm ls ls'.
  Hypothesis Hkeys : forall k, In k (dkeys bm) -> ~ In (snd k) space_keys.
  Hypothesis Hkeysf : forall k, In k (dkeys bm) -> In (snd k) (dkeys fm).
  Hypothesis Hex : exists u, assigned ls u.

  Lemma nth_In_says (q : list layer) i l b v : layers_wf q -> nth_error q i = Some l -> In (b, v) (llayout l) -> says q (i, b) v.
  Proof.
    intros W E Hin. exists l. split; [exact E|]. unfold layers_wf in W. rewrite Forall_forall in W.
    now apply (dget_In_iff _ _ _ (W l (nth_error_In _ _ E))).
  Qed.
  Lemma vals_keys k x : goes bm k x -> In x (dkeys bm).
  Proof. intros G. eapply one_vals_key; eauto. Qed.
  Lemma ok' : layers_ok ls'.
  Proof.
    unfold layers_ok. rewrite Forall_forall. intros l' Hl'. apply In_nth_error in Hl' as (j & Ej). split.
    - rewrite Forall_forall. intros [b v] Hin E. cbn [snd] in E. subst v.
      pose proof (@nth_In_says _ _ _ _ _ Hwf' Ej Hin) as S. destruct Hrel as [_ Hr]. apply Hr in S as ([i b0] & _ & _ & (l & Ei & G)).
      unfold layers_ok in Hok. rewrite Forall_forall in Hok. destruct (Hok l (nth_error_In _ _ Ei)) as [F _]. rewrite Forall_forall in F.
      apply dget_In in G. exact (F _ G eq_refl).
    - intros _. destruct (rel_nth' Hrel Ej) as (l & El & M). rewrite M. rewrite Forall_forall in Hmods. apply Hmods. eapply nth_error_In; eauto.
  Qed.
  Lemma fingered' : fingered fm ls'.
  Proof.
    intros x Hx. unfold mentioned in Hx. apply in_flat_map in Hx as (l' & Hl' & Hx). apply In_nth_error in Hl' as (j & Ej).
    destruct (rel_nth' Hrel Ej) as (l & El & M). apply in_app_iff in Hx as [Hx|Hx].
    - rewrite M in Hx. apply Hfing. unfold mentioned. apply in_flat_map. exists l. split; [eapply nth_error_In; eauto|]. apply in_app_iff. now left.
    - apply in_map_iff in Hx as ([b v] & <- & Hin). cbn [fst].
      pose proof (@nth_In_says _ _ _ _ _ Hwf' Ej Hin) as S. destruct Hrel as [_ Hr]. apply Hr in S as ([i b0] & Hb0 & Hs & (l0 & Ei & G)).
      inversion Hs as [? ? Gs|? Nk]; subst.
      + apply vals_keys in Gs. exact (Hkeysf _ Gs).
      + apply Hfing. unfold mentioned. apply in_flat_map. exists l0. split; [eapply nth_error_In; eauto|]. apply in_app_iff. right.
        apply dget_In in G. change b with (fst (b, v)). now apply in_map.
  Qed.
  Lemma assigned' u : assigned ls' u <-> assigned ls u.
  Proof. exact (rel_assigned Hrel u Hwf Hwf' Hkb). Qed.
  Lemma greedy' t toks : greedy ls t toks -> greedy ls' t toks.
  Proof.
    induction 1 as [|t r toks Nt (A & P & Lg) G IH|c r toks U G IH]; [constructor| |].
    - constructor; [exact Nt| |exact IH]. split; [now apply assigned'|]. split; [exact P|]. intros u Hu. apply Lg. now apply assigned'.
    - constructor; [|exact IH]. intros u Hu. apply U. now apply assigned'.
  Qed.

  Definition follows (c c' : comb) : Prop :=
    counted spaces c = counted spaces c' /\
    (counted spaces c = true -> forall c2, mapButton (layout_new ls) bm c = Ok c2 -> c2 = c').
  Lemma counted1 md b : counted spaces (mkComb md (frozenset [b])) = negb (mem b (elems spaces)).
  Proof. unfold counted. cbn [cbtn]. rewrite elems_single. reflexivity. Qed.
  Lemma mem_spaces b : mem b (elems spaces) = true <-> In b space_keys.
  Proof. rewrite mem_In. unfold spaces. now rewrite In_frozenset. Qed.
  Lemma way_types (q : list layer) c u : layers_wf q -> mods_disjoint q -> In c (ways q u) -> types q c u.
  Proof. intros W D H. now apply types_ways. Qed.
  Lemma ways_follow u c c' : settled ls' u -> In c (ways ls u) -> In c' (ways ls' u) -> follows c c'.
  Proof.
    intros St Hc Hc'. pose proof (rel_disjoint Hrel Hd) as Hd'. pose proof (@way_types _ _ _ Hwf' Hd' Hc') as T'.
    apply in_ways in Hc as (l & b & md & Hl & Hb & Hm & ->). apply In_nth_error in Hl as (i & Ei).
    pose proof (@nth_In_says _ _ _ _ _ Hwf Ei Hb) as S.
    assert (Hbk : In b kb).
    { rewrite Forall_forall in Hkb. specialize (Hkb l (nth_error_In _ _ Ei)). rewrite Forall_forall in Hkb. apply Hkb.
      apply (in_map fst) in Hb. exact Hb. }
    destruct (target bm (i, b)) as [j b'] eqn:Et. pose proof (target_sent bm (i, b)) as Sn. rewrite Et in Sn.
    assert (S' : says ls' (j, b') (CText u)) by (apply Hrel; exists (i, b); auto).
    destruct S' as (l' & Ej & G'). cbn [fst snd] in Ej, G'.
    destruct (rel_nth' Hrel Ej) as (lj & Elj & M).
    assert (Nm : lmods lj <> []) by (rewrite Forall_forall in Hmods; apply Hmods; eapply nth_error_In; eauto).
    assert (Ty : forall m2, In m2 (lmods lj) -> types ls' (mkComb m2 (frozenset [b'])) u).
    { intros m2 H2. split; [exists b'; reflexivity|]. apply (getText_says Hd' b' Ej); [now rewrite M|]. exists l'. auto. }
    assert (Cb : mem b (elems spaces) = mem b' (elems spaces)).
    { inversion Sn as [? ? Gs|? Nk]; subst; [|reflexivity].
      pose proof (Hkeys _ (vals_keys Gs)) as N2. cbn [snd] in N2. pose proof (Hkeys _ (proj2 (dget_key _ _) (ex_intro _ _ Gs))) as N1. cbn [snd] in N1.
      rewrite <- !mem_spaces in *. destruct (mem b (elems spaces)), (mem b' (elems spaces)); congruence. }
    destruct (lmods lj) as [|m0 ms] eqn:El; [congruence|].
    specialize (Ty m0 (or_introl eq_refl)).
    destruct St as [[c0 One]|Sp].
    - assert (E1 : c' = mkComb m0 (frozenset [b'])) by (rewrite (One _ T'), (One _ Ty); reflexivity). subst c'.
      split; [rewrite !counted1, Cb; reflexivity|]. intros _ c2 E.
      unfold mapButton in E. rewrite layout_new_layers in E. cbn [cmod cbtn] in E. apply bind_Ok in E as ([i0 l0] & Em & E). apply bind_Ok in E as (u1 & _ & E).
      rewrite elems_single in E. cbn [first bind] in E. apply bind_Ok in E as ([j2 b2] & Eg & E). apply dgetM_Ok in Eg.
      apply modifierToLayer_ok in Em as (Hi0 & Hm0 & _).
      assert (i0 = i) as -> by (eapply Hd; eauto). cbn [fst snd] in *.
      unfold target in Et. rewrite Eg in Et. injection Et as -> ->. rewrite Elj in E. cbn [of_opt bind] in E. rewrite El in E. cbn in E. congruence.
    - assert (I1 : mem b' (elems spaces) = true).
      { apply mem_spaces. apply (Sp _ Ty). cbn [cbtn]. rewrite elems_single. now left. }
      apply in_ways in Hc' as (l2 & b2 & m2 & _ & _ & _ & ->).
      assert (I2 : mem b2 (elems spaces) = true).
      { apply mem_spaces. apply (Sp _ T'). cbn [cbtn]. rewrite elems_single. now left. }
      unfold follows. rewrite !counted1, Cb, I1, I2. split; [reflexivity|discriminate].
  Qed.

  Lemma events_follow t : (forall u, used ls t u -> settled ls' u) ->
    Forall2 (Rev follows) (fst (fst (type_text fm (layout_new ls) None t))) (fst (fst (type_text fm (layout_new ls') None t))).
  Proof.
    intros St. assert (Hex' : exists u, assigned ls' u) by (destruct Hex as [u Hu]; exists u; now apply assigned').
    pose proof (events_ways fm t Hok Hex) as F. pose proof (events_ways fm t ok' Hex') as F'.
    assert (G : greedy ls t (map ev_token (fst (fst (type_text fm (layout_new ls) None t))))).
    { unfold type_text. apply (@type_greedy fm text read_full (fun t => t) ls) with (buf := @nil N); auto using read_full_ok; cbn; try lia; exact I. }
    assert (G' : greedy ls' t (map ev_token (fst (fst (type_text fm (layout_new ls') None t))))).
    { unfold type_text. apply (@type_greedy fm text read_full (fun t => t) ls') with (buf := @nil N); auto using read_full_ok, ok', fingered'; cbn; try lia; exact I. }
    assert (Us : forall u c, In (EMatch u c) (fst (fst (type_text fm (layout_new ls) None t))) -> settled ls' u).
    { intros u c Hin. apply St. eexists. split; [exact G|]. apply (in_map ev_token) in Hin. exact Hin. }
    pose proof (greedy_unique (greedy' G) G') as E. clear G G'. revert F F' Us E.
    generalize (fst (fst (type_text fm (layout_new ls) None t))) as es, (fst (fst (type_text fm (layout_new ls') None t))) as es'.
    induction es as [|e es IH]; intros es' F F' Us E; destruct es' as [|e' es']; try discriminate E; [constructor|].
    cbn [map] in E. injection E as E0 E. inversion F as [|? ? Fe F1]; subst. inversion F' as [|? ? Fe' F1']; subst.
    constructor; [|apply IH; auto; intros u c H; apply (Us u c); now right].
    destruct e as [u c|k], e' as [u' c'|k']; cbn in E0; try discriminate E0; injection E0 as <-; [|constructor].
    constructor. eapply ways_follow; eauto. apply (Us u c). now left.
  Qed.
  Definition lands (w w' : triad) : Prop := Forall2 (fun c c' => forall c2, mapButton (layout_new ls) bm c = Ok c2 -> c2 = c') w w'.
  Lemma occurrences_follow t : (forall u, used ls t u -> settled ls' u) -> Forall2 lands (occurrences ls fm t) (occurrences ls' fm t).
  Proof.
    intros St. unfold occurrences. eapply F2_flat_map; [|exact (Rev_stretches (events_follow St))].
    intros s s' Hs. eapply F2_impl; [|apply F2_windows; apply F2_filter; [|exact Hs]].
    - intros w w' Hw. eapply F2_impl; [|exact Hw]. intros c c' [[_ H] Hc]. exact (H Hc).
    - intros c c' H. apply H.
  Qed.
  Lemma lands_eq w w' w2 : lands w w' -> Forall2 (fun c c' => mapButton (layout_new ls) bm c = Ok c') w w2 -> w2 = w'.
  Proof.
    intros H. revert w2. induction H as [|c c' w w' Hc F IH]; intros w2 H2; inversion H2; subst; [reflexivity|]. f_equal; auto.
  Qed.

  Theorem retyped t m ts e : (forall u, used ls t u -> settled ls' u) ->
    typed_triads fm kb ls t = Ok ts -> forall q, Permutation q (in_Q ts) -> costs (layout_new ls) q m bm e ->
    exists ts', typed_triads fm kb ls' t = Ok ts' /\ effort_of m ts' e.
  Proof.
    intros St E q P (l & Fl & Sc & Ee). assert (Hex' : exists u, assigned ls' u) by (destruct Hex as [u Hu]; exists u; now apply assigned').
    destruct (typed_ok fm t Hspaces Hok Hex) as (ts0 & E0 & C). rewrite E in E0. injection E0 as <-.
    destruct (typed_ok fm t Hspaces ok' Hex') as (ts' & E' & C'). exists ts'. split; [exact E'|].
    pose proof (occurrences_follow St) as O. revert C C' O. generalize (occurrences ls fm t) as W, (occurrences ls' fm t) as W'. intros W W' C C' O.
    (* every occurrence has an image *)
    assert (Im : forall w, In w W -> exists v w2, In (w2, v) l /\ Forall2 (fun c c' => mapButton (layout_new ls) bm c = Ok c') w w2).
    { intros w Hw. apply (counts_keys _ C) in Hw. unfold dkeys in Hw. apply in_map_iff in Hw as ([w0 v] & Ew & Hw). cbn in Ew. subst w0.
      assert (Hq : In (w, inject_Z v) q).
      { apply (Permutation_in _ (Permutation_sym P)). unfold in_Q. apply in_map_iff. exists (w, v). auto. }
      clear - Fl Hq. induction Fl as [|x y q l [Hm Hv] F IH]; [destruct Hq|]. destruct Hq as [->|Hq].
      - destruct y as [w2 v2]. cbn [fst snd] in *. exists v2, w2. split; [left; reflexivity|exact Hm].
      - destruct (IH Hq) as (v1 & w2 & Hin & H2). exists v1, w2. split; [right|]; assumption. }
    pose (im := fun w : triad => match mapM (mapButton (layout_new ls) bm) w with Ok w' => w' | Raise _ => w end).
    assert (Eim : forall w w2, Forall2 (fun c c' => mapButton (layout_new ls) bm c = Ok c') w w2 -> im w = w2).
    { intros w w2 F2. unfold im. assert (mapM (mapButton (layout_new ls) bm) w = Ok w2) as ->; [|reflexivity].
      induction F2 as [|c c' w w2 Hc F2 IH]; [reflexivity|]. cbn [mapM]. rewrite Hc, IH. reflexivity. }
    assert (El : l = map (fun tv => (im (fst tv), snd tv)) q).
    { clear - Fl Eim. induction Fl as [|x y q l [Hm Hv] F IH]; [reflexivity|]. cbn [map]. rewrite <- IH. f_equal.
      rewrite (Eim _ _ Hm), <- Hv. destruct y; reflexivity. }
    assert (Wq : forall f : triad -> Q, (qsum (fun tv => snd tv * f (fst tv)) q == qsum f W)%Q).
    { intros f. rewrite <- (qsum_counts f _ C). rewrite (@qsum_perm _ (fun tv : triad * Q => (snd tv * f (fst tv))%Q) _ _ P).
      unfold in_Q. clear. induction ts as [|x ts IH]; [reflexivity|]. cbn [map qsum fst snd]. now rewrite IH. }
    assert (Wl : forall f : triad -> Q, (qsum (fun tv => snd tv * f (fst tv)) l == qsum (fun w => f (im w)) W)%Q).
    { intros f. rewrite <- (Wq (fun w => f (im w))). rewrite El. clear. induction q as [|x q IH]; [reflexivity|]. cbn [map qsum fst snd]. now rewrite IH. }
    assert (Wt : forall f : triad -> Q, (qsum (fun tv => snd tv * f (fst tv)) l == qsum (fun tv => snd tv * f (fst tv)) (in_Q ts'))%Q).
    { intros f. rewrite Wl. transitivity (qsum f W').
      - apply (qsum_Forall2 _ _ O). intros w w' Hw Ld. destruct (Im w Hw) as (v & w2 & _ & F2). rewrite (Eim _ _ F2), (lands_eq Ld F2). reflexivity.
      - rewrite <- (qsum_counts f _ C'). unfold in_Q. clear. induction ts' as [|x ts IH]; [reflexivity|]. cbn [map qsum fst snd]. now rewrite IH. }
    split.
    - rewrite Forall_forall. intros [w' v'] Hin. cbn [fst]. assert (Hw' : In w' W') by (apply (counts_keys _ C'); apply (in_map fst) in Hin; exact Hin).
      assert (exists w, In w W /\ lands w w') as (w & Hw & Ld).
      { clear - O Hw'. induction O as [|a b W W' Hab F IH]; [destruct Hw'|]. destruct Hw' as [<-|Hw']; [exists a; cbn; auto|].
        destruct (IH Hw') as (w & ? & ?). exists w. cbn; auto. }
      destruct (Im w Hw) as (v & w2 & Hl & F2). rewrite <- (lands_eq Ld F2). rewrite Forall_forall in Sc. exact (Sc _ Hl).
    - rewrite Ee. unfold mean.
      assert (Ew : (weight l == weight (in_Q ts'))%Q).
      { unfold weight. transitivity (qsum (fun tv : triad * Q => snd tv * 1)%Q l); [apply qsum_ext; intros; ring|].
        rewrite (Wt (fun _ => 1%Q)). apply qsum_ext; intros; ring. }
      pose proof (Wt (cost scoreQ m)) as Et. fold (total scoreQ m l) (total scoreQ m (in_Q ts')) in Et.
      destruct (Qeq_dec (weight l) 0) as [Z|Z], (Qeq_dec (weight (in_Q ts')) 0) as [Z'|Z']; rewrite Ew in *; try contradiction; [reflexivity|].
      rewrite Et. reflexivity.
  Qed.

  (** With a plain layout there never is a choice. *)
  Lemma plain_settled u : plain ls -> settled ls' u.
  Proof.
    intros [Pm Pk]. pose proof (rel_disjoint Hrel Hd) as Hd'.
    assert (K : forall c, types ls' c u -> exists j b m l, c = mkComb m (frozenset [b]) /\ nth_error ls' j = Some l /\ lmods l = [m] /\ says ls' (j, b) (CText u)).
    { intros [m bs] [[b Eb] T]. cbn [cbtn] in Eb. subst bs. pose proof T as T0. unfold getText in T. apply bind_Ok in T as ([j l] & Em & _). cbn [cmod] in Em.
      apply modifierToLayer_ok in Em as (Hj & Hm & _). exists j, b, m, l. split; [reflexivity|]. split; [exact Hj|].
      destruct (rel_nth' Hrel Hj) as (l0 & El0 & M0). rewrite Forall_forall in Pm. destruct (Pm l0 (nth_error_In _ _ El0)) as (md & Emd).
      rewrite M0, Emd in *. destruct Hm as [->|[]]. split; [reflexivity|]. refine (proj1 (@getText_says ls' Hd' j l m b Hj _ (CText u)) T0). rewrite M0. now left. }
    assert (Bk : forall j b, says ls' (j, b) (CText u) -> exists k, sent bm k (j, b) /\ says ls k (CText u)).
    { intros j b S. apply Hrel in S as (k & _ & S1 & S2). eauto. }
    assert (Sp : forall k x, sent bm k x -> (In (snd k) space_keys -> In (snd x) space_keys)).
    { intros k x Sn Hk. inversion Sn as [? ? Gs|? Nk]; subst; [|exact Hk]. exfalso.
      exact (Hkeys _ (proj2 (dget_key _ _) (ex_intro _ _ Gs)) Hk). }
    destruct (spaces_or_not u Hwf' Hd') as [All|(c & Tc & Nc)]; [right; exact All|left].
    exists c. intros c' Tc'. destruct (K _ Tc) as (j & b & m & l & -> & Hj & Hm & S). destruct (K _ Tc') as (j' & b' & m' & l' & -> & Hj' & Hm' & S').
    destruct (Bk _ _ S) as (k & Sk & Vk). destruct (Bk _ _ S') as (k' & Sk' & Vk').
    destruct (Pk k k' u Vk Vk') as [<-|[Ik Ik']].
    - assert (E : (j, b) = (j', b')) by (rewrite <- (sent_target Sk), <- (sent_target Sk'); reflexivity). injection E as -> ->.
      rewrite Hj in Hj'. injection Hj' as <-. congruence.
    - exfalso. apply Nc. cbn [cbtn]. rewrite elems_single. intros x [<-|[]]. exact (Sp _ _ Sk Ik).
  Qed.
  (** No choice appears as long as all texts stay on their layers. *)
  Lemma stay_settled u : (forall i, stays bm i) -> settled ls u -> settled ls' u.
  Proof.
    intros Sy St. pose proof (rel_disjoint Hrel Hd) as Hd'.
    assert (K : forall c, In c (ways ls' u) -> exists i b b' m, c = mkComb m (frozenset [b']) /\ In (mkComb m (frozenset [b])) (ways ls u) /\
      sent bm (i, b) (i, b') /\ exists l, nth_error ls i = Some l /\ In m (lmods l)).
    { intros c Hc. apply in_ways in Hc as (l' & b' & m & Hl & Hb & Hm & ->). apply In_nth_error in Hl as (j & Ej).
      pose proof (@nth_In_says _ _ _ _ _ Hwf' Ej Hb) as S. apply Hrel in S as ([i b] & _ & Sn & Vk).
      assert (i = j) as ->. { inversion Sn as [? ? G|? N]; subst; [|reflexivity]. symmetry. exact (Sy i (i, b) (j, b') eq_refl G). }
      destruct (rel_nth' Hrel Ej) as (l & El & M). exists j, b, b', m. split; [reflexivity|]. split; [|split; [exact Sn|exists l; split; [exact El|now rewrite <- M]]].
      apply in_ways. exists l, b, m. split; [eapply nth_error_In; eauto|]. destruct Vk as (l2 & E2 & G). cbn [fst snd] in *. rewrite El in E2. injection E2 as <-.
      split; [now apply dget_In|]. split; [now rewrite <- M|reflexivity]. }
    destruct St as [[c0 One]|Sp].
    - left. destruct (ways ls' u) as [|c cs] eqn:Ew.
      + exists (mkComb (frozenset []) (frozenset [])). intros c' T. apply (types_ways c' u Hwf' Hd') in T. rewrite Ew in T. destruct T.
      + exists c. intros c' T. apply (types_ways c' u Hwf' Hd') in T. rewrite Ew in T.
        destruct (K c (or_introl eq_refl)) as (i & b & b' & m & -> & W & Sn & l & El & Hm).
        destruct (K c' T) as (i2 & b2 & b2' & m2 & -> & W2 & Sn2 & l2 & El2 & Hm2).
        assert (X : mkComb m2 (frozenset [b2]) = mkComb m (frozenset [b])).
        { rewrite (One _ (proj2 (types_ways _ u Hwf Hd) W)). apply One. now apply types_ways. }
        injection X as <- <-.
        assert (i2 = i) as -> by (eapply Hd; eauto).
        assert (E : (i, b') = (i, b2')) by (rewrite <- (sent_target Sn), <- (sent_target Sn2); reflexivity). injection E as <-. reflexivity.
    - right. intros c' T. apply (types_ways c' u Hwf' Hd') in T. destruct (K c' T) as (i & b & b' & m & -> & W & Sn & _).
      apply (types_ways _ u Hwf Hd) in W. specialize (Sp _ W). cbn [cbtn] in *. rewrite elems_single in *.
      assert (Hb : In b space_keys) by (apply Sp; now left).
      inversion Sn as [? ? G|? N]; subst; [|exact Sp]. exfalso. exact (Hkeys _ (proj2 (dget_key _ _) (ex_intro _ _ G)) Hb).
  Qed.
End Retype.
