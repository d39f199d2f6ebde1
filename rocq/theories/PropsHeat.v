(** C91: the picture with the heat map of a typed text. *)
From Coq Require Import QArith Lqa.
From Verif Require Import Base LayoutModel LayoutSpec LayoutProofs WriterModel WriterSpec WriterProofs StatsModel StatsSpec.
From Verif Require Import DataLayouts DataFingermap ShippedProofs StatsProofs StatsAll PlotModel PlotSpec PlotProofs PropsTools RenderModel RenderProofs PropsRender SvgModel.
From Verif Require Import PropsWriter.
From Verif Require PropsPage PropsPretty PropsStats.
Close Scope Q_scope.
Close Scope Z_scope.
Open Scope string_scope.
Open Scope list_scope.
Unset Implicit Arguments.

(** Presses of a key while typing the text, with all modifiers *)
Definition pressed_times (d : generic_data) (t : text) (b : string) : Z :=
  sumZ (presses b) (map ev_obj (fst (fst (type_text defaultFingermap (layout_new (shipped_layers d)) None t)))).
(** lulua-write, lulua-analyze keyheatmap and lulua-render svg --heatmap, one after another *)
Definition heat_picture (letter : N -> bool) (display : text -> res text) (d : generic_data) (t : text) : res (list drawn * (Q * Q)) :=
  do s <- PropsPage.typing letter d t;
  do h <- keyHeatmap (s_buttons (a_simple s));
  renderSvg defaultSettings kb_widthof (layout_new (shipped_layers d)) defaultFingermap kb_markedof display kb_rows (Some h).

(** [top] is the highest of the counts. *)
Definition highest (buttons : list (string * Z)) (top : Z) : Prop :=
  (exists b, dget buttons b = Some top) /\ forall b v, dget buttons b = Some v -> (v <= top)%Z.
(** The circle on a key: there is one iff the key was pressed; its opacity is the number
    of presses in proportion to the key pressed most often. *)
Definition shown_heat (buttons : list (string * Z)) (top : Z) (x : drawn) : Prop :=
  match d_highlight x, dget buttons (d_button x) with
  | Some (o, _, _, _), Some v => (o * inject_Z top == inject_Z v)%Q
  | None, None => True
  | _, _ => False
  end.

Section Heat.
  Variables (buttons : list (string * Z)).
  Hypothesis Wf : dict_wf buttons.
  Hypothesis Pos : all_counts (fun v => 0 < v)%Z buttons.
  Lemma heat_values h k : keyHeatmap buttons = Ok h -> key_heat h = Ok k -> exists top, highest buttons top /\ (0 < top)%Z /\
    forall b, match dget k b, dget buttons b with
              | Some q, Some v => (q * inject_Z top == inject_Z v)%Q /\ (0 < q)%Q
              | None, None => True
              | _, _ => False
              end.
  Proof.
    intros Eh Ek. destruct (C59_heatmap _ _ Wf Eh) as [_ (P & _ & _)].
    assert (Pos' : all_counts (fun v => 0 < v)%Z (h_buttons h)).
    { unfold all_counts in *. rewrite Forall_forall in *. intros x I. apply Pos. apply (Permutation_in _ P), I. }
    assert (Wf' : dict_wf (h_buttons h)).
    { unfold dict_wf, dkeys in *. apply (Permutation_NoDup (Permutation_map fst (Permutation_sym P))), Wf. }
    assert (Eq : forall b, dget buttons b = dget (h_buttons h) b).
    { intros b. destruct (dget buttons b) as [v|] eqn:E.
      - symmetry. apply dget_In_iff; [exact Wf'|]. apply dget_In_iff in E; [|exact Wf]. apply (Permutation_in _ (Permutation_sym P)), E.
      - symmetry. apply dget_None. apply dget_None in E. intros I. apply E. apply (Permutation_in _ (Permutation_map fst P)), I. }
    destruct (C59_heat _ _ Ek Pos') as (K & B & (b1 & q1 & I1 & H1) & top & T & F). exists top.
    assert (G : forall b, match dget k b, dget (h_buttons h) b with
              | Some q, Some v => (q * inject_Z top == inject_Z v)%Q /\ (0 < q <= 1)%Q
              | None, None => True
              | _, _ => False
              end).
    { intros b. clear -K F B. revert K F B. generalize (h_buttons h) as d. intros d. revert k. induction d as [|[c v] d IH]; intros k K F B.
      - inversion F; subst. exact I.
      - inversion F as [|? [c' q] ? k' H F']; subst. cbn [map dkeys fst] in K. injection K as -> K. inversion B; subst.
        cbn [dget fst snd] in *. destruct (eqb_spec b c); [split; assumption|]. apply IH; assumption. }
    assert (Wk : dict_wf k) by (unfold dict_wf; unfold dkeys at 1; rewrite K; exact Wf').
    split; [split|split].
    - exists b1. specialize (G b1). rewrite (proj2 (dget_In_iff _ _ _ Wk) I1) in G. rewrite Eq. destruct (dget (h_buttons h) b1) as [v|]; [|destruct G]. f_equal.
      destruct G as [G _]. rewrite H1 in G. rewrite Qmult_1_l in G. unfold Qeq in G. cbn in G. lia.
    - intros b v E. specialize (G b). rewrite <- Eq, E in G. destruct (dget k b) as [q|]; [|destruct G]. destruct G as [G [_ L]].
      rewrite Zle_Qle, <- G. setoid_replace (inject_Z top) with (1 * inject_Z top)%Q at 2 by ring. apply Qmult_le_compat_r; [exact L|].
      change 0%Q with (inject_Z 0). rewrite <- Zle_Qle. lia.
    - exact T.
    - intros b. specialize (G b). rewrite Eq. destruct (dget k b), (dget (h_buttons h) b); tauto.
  Qed.
End Heat.

Lemma not_keys : forallb (fun b => negb (mem b ["total"; "buttons"])) kb_names = true.
Proof. vm_compute. reflexivity. Qed.
Lemma kb_keys : keys kb_rows = kb_names.
Proof. vm_compute. reflexivity. Qed.
Lemma renderSvg_heat s width L fm marked display rows h k : key_heat h = Ok k ->
  renderSvg s width L fm marked display rows (Some h) = render s width L fm marked (highlight k) display rows.
Proof. intros E. unfold renderSvg, keyHeat. rewrite E. reflexivity. Qed.
Lemma renderSvg_raise s width L fm marked display rows h e : key_heat h = Raise e -> renderSvg s width L fm marked display rows (Some h) = Raise e.
Proof. intros E. unfold renderSvg, keyHeat. rewrite E. reflexivity. Qed.
Lemma render_keys s width L fm marked heat display rows ds wh x : render s width L fm marked heat display rows = Ok (ds, wh) -> In x ds ->
  exists pos b, draw_key s width L fm marked heat display pos b = Ok x.
Proof.
  intros Er Ix. unfold render in Er. apply bind_inv in Er as (md & _ & Er). apply bind_inv in Er as (ds' & Em & Er). injection Er as -> _.
  apply mapM_Ok_inv in Em. destruct (Forall2_In_r _ _ _ _ Em Ix) as (b & _ & Eb). eauto.
Qed.
(** Any statistics of keys of the keyboard with any shipped layout: the heat map can be
    made, it can be drawn if there is something in it, every key of the keyboard is there
    once, and the heat is proportional to the counts. *)
Theorem C91_shown d display buttons : In d all_layouts -> (forall t, exists e, display t = Ok e) ->
  dict_wf buttons -> all_counts (fun v => 0 < v)%Z buttons -> incl (dkeys buttons) kb_names -> buttons <> [] ->
  exists h ds wh top, keyHeatmap buttons = Ok h /\
    renderSvg defaultSettings kb_widthof (layout_new (shipped_layers d)) defaultFingermap kb_markedof display kb_rows (Some h) = Ok (ds, wh) /\
    map d_button ds = kb_names /\ highest buttons top /\ Forall (shown_heat buttons top) ds.
Proof.
  intros Id Hd Wf Pos Inc Ne.
  destruct (keyHeatmap buttons) as [h|e] eqn:Eh.
  2: { exfalso. apply C59_fails in Eh as (_ & b & Ib & X). pose proof (proj1 (forallb_forall _ _) not_keys b (Inc b Ib)) as F. cbv beta in F.
       rewrite (proj2 (mem_In _ _) X) in F. discriminate F. }
  destruct (C59_heatmap _ _ Wf Eh) as [_ (P & _ & _)].
  destruct (key_heat h) as [k|e] eqn:Ek.
  2: { exfalso. apply C59_heat_fails in Ek as [[_ X]|(_ & X & _)].
       - rewrite X in P. apply Permutation_nil in P. contradiction.
       - unfold dvals in X. apply (Permutation_in _ (Permutation_map snd P)) in X. apply in_map_iff in X as (bv & E0 & I0).
         unfold all_counts in Pos. rewrite Forall_forall in Pos. specialize (Pos bv I0). cbv beta in Pos. lia. }
  destruct (heat_values _ Wf Pos _ _ Eh Ek) as (top & Ht & Tp & G).
  destruct (C53_shipped d (highlight k) display Id Hd) as (ds & [w hh] & Er & _).
  exists h, ds, (w, hh), top. split; [reflexivity|]. split; [rewrite (renderSvg_heat _ _ _ _ _ _ _ _ _ Ek); exact Er|].
  destruct (C53_caps _ _ _ _ _ _ _ _ _ _ _ Er) as (m & _ & Km & _). split; [rewrite <- kb_keys; exact Km|]. split; [exact Ht|].
  apply Forall_forall. intros x Ix. destruct (render_keys _ _ _ _ _ _ _ _ _ _ _ Er Ix) as (pos & b & Eb).
  destruct (draw_key_inv _ _ _ _ _ _ _ _ _ _ Eb) as (isMod & ts & px & py & sh & _ & _ & _ & ->).
  unfold shown_heat. cbn [d_highlight d_button]. specialize (G b). unfold highlight. destruct (dget k b) as [q|], (dget buttons b) as [v|]; try contradiction.
  - destruct G as [G Hq]. destruct (Qle_bool q 0) eqn:Eq; [apply Qle_bool_iff in Eq; lra|]. cbn [negb drawHighlight]. exact G.
  - exact I.
Qed.
(** Without any press the picture cannot be drawn; without --heatmap it has no circles. *)
Theorem C91_nothing d display : exists h, keyHeatmap [] = Ok h /\
  renderSvg defaultSettings kb_widthof (layout_new (shipped_layers d)) defaultFingermap kb_markedof display kb_rows (Some h) = Raise ValueError.
Proof. exists (mkHeat 0 []). split; [reflexivity|]. apply renderSvg_raise. reflexivity. Qed.
Theorem C91_without s width L fm marked display rows ds wh : renderSvg s width L fm marked display rows None = Ok (ds, wh) ->
  Forall (fun x => d_highlight x = None) ds.
Proof.
  intros Er. unfold renderSvg, keyHeat in Er. cbn [bind] in Er.
  unfold render in Er. apply bind_inv in Er as (md & _ & Er). apply bind_inv in Er as (ds' & Em & Er). injection Er as -> _.
  apply Forall_forall. intros x Ix. apply mapM_Ok_inv in Em. destruct (Forall2_In_r _ _ _ _ Em Ix) as (b & _ & Eb).
  destruct (draw_key_inv _ _ _ _ _ _ _ _ _ _ Eb) as (isMod & ts & px & py & sh & _ & _ & _ & ->). reflexivity.
Qed.

(** * From text to picture *)
Lemma pressed_mentioned ls : layers_wf ls -> mods_disjoint ls -> forall es, Forall (handled defaultFingermap (layout_new ls)) es ->
  forall b, sumZ (presses b) es <> 0%Z -> In b (mentioned ls).
Proof.
  intros W D es F b. induction F as [|e es [Hp Ht] _ IH]; [intros H; destruct H; reflexivity|]. rewrite sumZ_cons. intros H.
  destruct (Z.eq_dec (presses b e) 0) as [E|E]; [apply IH; lia|]. destruct e as [c|ch|]; cbn [presses] in E; [|destruct E; reflexivity..].
  destruct Hp as (x & Ex & _). destruct Ht as [u Hu]. destruct c as [m bt]. cbn [cmod cbtn] in *.
  assert (bt = frozenset [x]) as -> by (rewrite <- Ex; symmetry; apply frozenset_elems).
  apply (getText_ways u m x W D) in Hu. apply in_ways in Hu as (l & b' & m' & Il & Ib & Im & Ec). 
  pose proof (f_equal (fun c => elems (cbtn c)) Ec) as Eb. apply (f_equal cmod) in Ec. cbn [cmod] in Ec. subst m'. change ([x] = [b']) in Eb. injection Eb as ->.
  unfold mentioned. apply in_flat_map. exists l. split; [exact Il|]. apply in_or_app.
  destruct (mem b (elems m)) eqn:M.
  - left. apply in_flat_map. exists m. split; [exact Im|apply mem_In, M].
  - right. destruct (mem b (elems (frozenset [b']))) eqn:M'; [|destruct E; reflexivity]. apply mem_In in M'. change (elems (frozenset [b'])) with [b'] in M'. destruct M' as [<-|[]].
    apply in_map_iff. exists (b', CText u). auto.
Qed.
(** With the presses of the text itself; if nothing of it can be typed there is no
    picture. *)
Theorem C91_typed letter display d t : In d all_layouts -> (forall t, exists e, display t = Ok e) ->
  let n := pressed_times d t in
  ((exists b, n b <> 0%Z) -> exists ds wh top, heat_picture letter display d t = Ok (ds, wh) /\ map d_button ds = kb_names /\
     (exists b, n b = top) /\ (forall b, (0 <= n b <= top)%Z) /\ (forall b, n b <> 0%Z -> In b kb_names) /\
     Forall (fun x => match d_highlight x with
                      | Some (o, _, _, _) => (0 < o)%Q /\ (o * inject_Z top == inject_Z (n (d_button x)))%Q
                      | None => n (d_button x) = 0%Z
                      end) ds) /\
  ((forall b, n b = 0%Z) -> heat_picture letter display d t = Raise ValueError).
Proof.
  intros Id Hd n.
  destruct (PropsStats.C17_typed d letter None t Id) as (s0 & s & E0 & Es & R).
  assert (Et : PropsPage.typing letter d t = Ok s) by (unfold PropsPage.typing; rewrite E0; exact Es).
  destruct (PropsPage.typing_positive _ _ _ _ Id Et) as [Pos Rb].
  destruct (PropsPretty.typed_recorded _ _ _ _ Id Et) as ((Wf & _) & _).
  assert (Nn : forall b, (0 <= n b)%Z) by (intros b; apply PropsPage.presses_nonneg).
  assert (Rn : forall b, dget (s_buttons (a_simple s)) b = nonzero (n b)) by exact Rb. clear Rb R Es E0.
  assert (Inc : forall b, n b <> 0%Z -> In b kb_names).
  { intros b H. destruct (shipped_facts _ Id) as (W & D & _ & Inc). destruct (C12_shipped _ Id) as (Hok & Hf & Hs).
    pose proof (@typed_handled _ _ None t Hok W D Hf) as Hh. unfold n, pressed_times in H. apply (pressed_mentioned _ W D _ Hh) in H. apply Inc, H. }
  unfold heat_picture. rewrite Et. cbn [bind]. set (buttons := s_buttons (a_simple s)) in *. clearbody buttons n. split.
  - intros [b0 H0].
    destruct (C91_shown d display buttons Id Hd Wf Pos) as (h & ds & wh & top & Eh & Er & K & [[b1 H1] Hi] & F).
    { intros b I. apply Inc. apply dget_key in I as [v I]. rewrite Rn in I. intros X. rewrite X in I. discriminate I. }
    { intros ->. specialize (Rn b0). unfold nonzero in Rn. destruct (Z.eqb_spec (n b0) 0); [contradiction|discriminate Rn]. }
    exists ds, wh, top. rewrite Eh. cbn [bind]. split; [exact Er|]. split; [exact K|].
    assert (V : forall b v, dget buttons b = Some v -> n b = v) by (intros b v E; rewrite Rn in E; unfold nonzero in E; destruct (Z.eqb _ _); congruence).
    assert (Tp : (0 < top)%Z) by (unfold all_counts in Pos; rewrite Forall_forall in Pos; apply dget_In in H1; apply (Pos _ H1)).
    split; [exists b1; apply V, H1|]. split; [|split; [exact Inc|]].
    + intros b. split; [apply Nn|]. destruct (dget buttons b) as [v|] eqn:E; [rewrite (V _ _ E); apply (Hi _ _ E)|]. rewrite Rn in E. unfold nonzero in E.
      destruct (Z.eqb_spec (n b) 0); [lia|discriminate E].
    + apply Forall_forall. intros x Ix. rewrite Forall_forall in F. specialize (F x Ix). unfold shown_heat in F.
      destruct (d_highlight x) as [[[[o cx] cy] r]|], (dget buttons (d_button x)) as [v|] eqn:E; try contradiction.
      * rewrite (V _ _ E). split; [|exact F]. unfold all_counts in Pos. rewrite Forall_forall in Pos. apply dget_In in E. specialize (Pos _ E). cbn [snd] in Pos.
        assert (Ht : (0 < inject_Z top)%Q) by (apply injQ_pos, Tp). assert (Hv : (0 < inject_Z v)%Q) by (apply injQ_pos, Pos).
        destruct (Qlt_le_dec 0 o) as [|X]; [assumption|]. exfalso. assert (o * inject_Z top <= 0)%Q; [|lra].
        setoid_replace 0%Q with (0 * inject_Z top)%Q by ring. apply Qmult_le_compat_r; lra.
      * rewrite Rn in E. unfold nonzero in E. destruct (Z.eqb_spec (n (d_button x)) 0); [assumption|discriminate E].
  - intros Z. assert (buttons = []) as ->; [|reflexivity]. destruct buttons as [|[b v] l]; [reflexivity|]. specialize (Rn b). rewrite Z in Rn. cbn [dget] in Rn.
    destruct (eqb_spec b b); [discriminate Rn|contradiction].
Qed.

(** Seven characters, one of which cannot be typed, two of them with shift *)
Example C91_example :
  map (pressed_times data_ar_lulua [0x627; 0x628; 0x627; 0x61F; 0x627; 0x4E00; 0x61F]%N) ["Dl1"; "Dl3"; "Dl4"; "Er_shift"; "Dl2"] = [1; 3; 2; 2; 0]%Z /\
  heat_picture (fun _ => false) Ok data_ar_lulua [0x4E00]%N = Raise ValueError.
Proof. split; vm_compute; reflexivity. Qed.
(** A keyboard of four keys, one of them unused *)
Definition circles (r : res (list drawn * (Q * Q))) : list (string * Q) :=
  match r with
  | Ok (ds, _) => flat_map (fun x => match d_highlight x with Some (o, _, _, _) => [(d_button x, o)] | None => [] end) ds
  | Raise _ => []
  end.
Example C91_keys :
  circles (do h <- keyHeatmap [("Dl1", 1); ("Dl3", 3); ("Dl4", 2)]%Z;
    renderSvg defaultSettings kb_widthof (layout_new []) defaultFingermap kb_markedof Ok [(["Dl1"; "Dl2"], ["Dl3"]); ([], ["Dl4"])] (Some h)) =
    [("Dl1", 1 # 3); ("Dl3", 3 # 3); ("Dl4", 2 # 3)]%Q.
Proof. vm_compute. reflexivity. Qed.

Print Assumptions C91_shown.
Print Assumptions C91_nothing.
Print Assumptions C91_without.
Print Assumptions C91_typed.
