(** C90: the optimizer's energy against typing the text again *)
From Coq Require Import QArith SpecFloat.
From Verif Require Import Base KeyboardModel LayoutModel LayoutSpec LayoutProofs WriterModel WriterSpec StatsModel StatsSpec CarpalxModel CarpalxSpec CarpalxProofs
  CarpalxShipped OptModel OptSpec OptProofs OptEnergy OptLayout OptMain OptArgs
  DataKeyboard DataLayouts DataFingermap DataModels ShippedProofs PropsWriter PropsOptimize RetypeSpec RetypeProofs.
Close Scope Q_scope.
Open Scope string_scope.
Open Scope list_scope.
Set Implicit Arguments.
Unset Strict Implicit.

(** What the optimizer computes for a button map, from the triads of a text typed
    with the old layout, is the effort of typing that text with the new layout, if
    the new layout leaves the writer no choice for the texts it comes across. *)
Theorem C90_retyped fm kb bm ls ls' t m ts e : List.length fm < 128 -> incl space_keys kb ->
  layers_ok ls -> Forall (fun l => lmods l <> []) ls -> layers_wf ls -> layers_wf ls' -> mods_disjoint ls ->
  Forall (fun l => Forall (fun b => In b kb) (dkeys (llayout l))) ls -> fingered fm ls ->
  one_to_one bm -> relabelled kb bm ls ls' ->
  (forall k, In k (dkeys bm) -> ~ In (snd k) space_keys) -> (forall k, In k (dkeys bm) -> In (snd k) (dkeys fm)) ->
  (exists u, assigned ls u) -> (forall u, used ls t u -> settled ls' u) ->
  typed_triads fm kb ls t = Ok ts -> costs (layout_new ls) (in_Q ts) m bm e ->
  exists ts', typed_triads fm kb ls' t = Ok ts' /\ effort_of m ts' e.
Proof.
  intros H1 H2 H3 H4 H5 H6 H7 H8 H9 H10 H11 H12 H13 H14 St E C.
  exact (retyped H1 H2 H3 H4 H5 H6 H7 H8 H9 H10 H11 H12 H13 H14 St E (Permutation_refl _) C).
Qed.
(** A layout without choices never gets any. *)
Theorem C90_plain kb bm ls ls' u : layers_wf ls' -> mods_disjoint ls -> relabelled kb bm ls ls' ->
  (forall k, In k (dkeys bm) -> ~ In (snd k) space_keys) -> plain ls -> settled ls' u.
Proof. intros W D R K P. exact (plain_settled W D R K u P). Qed.

Lemma weighted_perm g stats : (g_limit g <= 0)%Z -> Permutation (weighted g stats) (in_Q stats).
Proof.
  intros H. unfold weighted, in_Q, used_triads. destruct (Z.ltb_spec 0 (g_limit g)); [lia|]. apply Permutation_map, sort_desc_perm.
Qed.
Lemma self_relabelled kb ls isLetter : NoDup kb -> Forall (fun l => Forall (fun b => In b kb) (dkeys (llayout l))) ls ->
  relabelled kb (initial_map (layout_new ls) kb isLetter) ls ls.
Proof.
  intros Hkb Hin. split; [reflexivity|]. intros x v.
  assert (Id : forall k y, sent (initial_map (layout_new ls) kb isLetter) k y -> k = y).
  { intros k y H. inversion H as [? ? G|? N]; subst; [|reflexivity]. apply (initial_goes ls isLetter Hkb) in G as [-> _]. reflexivity. }
  split.
  - intros S. exists x. split; [|split; [|exact S]].
    + destruct S as (l & Hl & G). rewrite Forall_forall in Hin. pose proof (Hin l (nth_error_In _ _ Hl)) as F.
      rewrite Forall_forall in F. apply F. apply dget_key. eauto.
    + pose proof (target_sent (initial_map (layout_new ls) kb isLetter) x) as S'. pose proof (Id _ _ S') as E. rewrite <- E in S'. exact S'.
  - intros (k & _ & Sk & V). now rewrite <- (Id _ _ Sk).
Qed.

(** The whole program: a text is typed and its triads are given to the optimizer
    without a limit, without --randomize and mutations.  Then the layout it writes is not harder
    to type this text with than the layout it has read. *)
Theorem C90_never_harder fm fnm isLetter rnd ord ordm thr (tol : carrier Qnum) fuel g ls kb m t ts out e :
  (forall l, Permutation (ord l) l) -> (forall s, Permutation (ordm s) (elems s)) ->
  List.length fm < 128 -> incl space_keys kb -> incl kb (dkeys fm) -> (forall b, isLetter b = true -> ~ In b space_keys) ->
  NoDup kb -> layers_ok ls -> mods_disjoint ls -> Forall (fun l => lmods l <> []) ls -> layers_wf ls ->
  Forall (fun l => Forall (fun b => In b kb) (dkeys (llayout l))) ls -> fingered fm ls -> (exists u, assigned ls u) ->
  (g_limit g <= 0)%Z -> g_mutations g = [] -> g_randomize g = false ->
  typed_triads fm kb ls t = Ok ts ->
  optimize (nm:=Qnum) fnm isLetter rnd ord ordm thr tol fuel g (layout_new ls) kb m ts = Ok (out, e) ->
  (forall u, used ls t u -> settled ls u /\ settled (reread out) u) ->
  exists ts' old new, typed_triads fm kb (reread out) t = Ok ts' /\ effort_of m ts old /\ effort_of m ts' new /\ (new <= old)%Q.
Proof.
  intros Ho Hom Hfm Hsp Hinc Hlet Hkb Hok Hd Hm Hw Hin Hf Hex Hlim Hmut Hrnd T E St.
  destruct (optimize_spec Ho Hom Hkb Hd Hm E) as (bm0 & start & best & fin & e0 & eb & Em & Es & One & Rs & Rb & _ & _ & Rel & W & C0 & Cb & _ & Le & _).
  rewrite Hmut in Em. cbn in Em. injection Em as <-. rewrite Hrnd in Es. inversion Es; subst.
  pose proof (initial_one ls isLetter Hkb) as One0.
  assert (Ks : forall k, In k (dkeys (initial_map (layout_new ls) kb isLetter)) -> ~ In (snd k) space_keys /\ In (snd k) (dkeys fm)).
  { intros k Hk. apply dget_key in Hk as [v G]. apply (initial_goes ls isLetter Hkb) in G as (_ & _ & Ik & Mk).
    unfold mutable_key in Mk. apply andb_prop in Mk as [Mk _]. split; [now apply Hlet|now apply Hinc]. }
  destruct (retyped Hfm Hsp Hok Hm Hw Hw Hd Hin Hf One0 (self_relabelled isLetter Hkb Hin) (fun k Hk => proj1 (Ks k Hk)) (fun k Hk => proj2 (Ks k Hk)) Hex (t:=t) (m:=m) (ts:=ts) (e:=e0)
    (fun u Hu => proj1 (St u Hu)) T (weighted_perm ts Hlim) C0) as (ts0 & T0 & E0).
  rewrite T in T0. injection T0 as <-.
  assert (Kb : forall k, In k (dkeys best) -> ~ In (snd k) space_keys /\ In (snd k) (dkeys fm)) by (rewrite (proj1 Rb); exact Ks).
  destruct (retyped Hfm Hsp Hok Hm Hw W Hd Hin Hf One Rel (fun k Hk => proj1 (Kb k Hk)) (fun k Hk => proj2 (Kb k Hk)) Hex (t:=t) (m:=m) (ts:=ts) (e:=eb)
    (fun u Hu => proj2 (St u Hu)) T (weighted_perm ts Hlim) Cb) as (ts' & T' & E').
  exists ts', e0, eb. auto.
Qed.
(** In particular for layouts with one modifier per layer and one key per text. *)
Theorem C90_never_harder_plain fm fnm isLetter rnd ord ordm thr (tol : carrier Qnum) fuel g ls kb m t ts out e :
  (forall l, Permutation (ord l) l) -> (forall s, Permutation (ordm s) (elems s)) ->
  List.length fm < 128 -> incl space_keys kb -> incl kb (dkeys fm) -> (forall b, isLetter b = true -> ~ In b space_keys) ->
  NoDup kb -> layers_ok ls -> mods_disjoint ls -> plain ls -> layers_wf ls ->
  Forall (fun l => Forall (fun b => In b kb) (dkeys (llayout l))) ls -> fingered fm ls -> (exists u, assigned ls u) ->
  (g_limit g <= 0)%Z -> g_mutations g = [] -> g_randomize g = false ->
  typed_triads fm kb ls t = Ok ts ->
  optimize (nm:=Qnum) fnm isLetter rnd ord ordm thr tol fuel g (layout_new ls) kb m ts = Ok (out, e) ->
  exists ts' old new, typed_triads fm kb (reread out) t = Ok ts' /\ effort_of m ts old /\ effort_of m ts' new /\ (new <= old)%Q.
Proof.
  intros Ho Hom Hfm Hsp Hinc Hlet Hkb Hok Hd Hp Hw Hin Hf Hex Hlim Hmut Hrnd T E.
  assert (Hm : Forall (fun l => lmods l <> []) ls).
  { destruct Hp as [Pm _]. eapply Forall_impl; [|exact Pm]. intros l [md ->]. discriminate. }
  apply (C90_never_harder Ho Hom Hfm Hsp Hinc Hlet Hkb Hok Hd Hm Hw Hin Hf Hex Hlim Hmut Hrnd T E).
  destruct (optimize_spec Ho Hom Hkb Hd Hm E) as (bm0 & start & best & fin & e0 & eb & Em & Es & One & Rs & Rb & _ & _ & Rel & W & _).
  rewrite Hmut in Em. cbn in Em. injection Em as <-.
  assert (Ks : forall k, In k (dkeys (initial_map (layout_new ls) kb isLetter)) -> ~ In (snd k) space_keys /\ In (snd k) (dkeys fm)).
  { intros k Hk. apply dget_key in Hk as [v G]. apply (initial_goes ls isLetter Hkb) in G as (_ & _ & Ik & Mk).
    unfold mutable_key in Mk. apply andb_prop in Mk as [Mk _]. split; [now apply Hlet|now apply Hinc]. }
  intros u _. split.
  - exact (C90_plain u Hw Hd (self_relabelled isLetter Hkb Hin) (fun k Hk => proj1 (Ks k Hk)) Hp).
  - apply (C90_plain u W Hd Rel); [rewrite (proj1 Rb); intros k Hk; exact (proj1 (Ks k Hk))|exact Hp].
Qed.

(** Texts that stay on their layers do not get new choices. *)
Theorem C90_stays kb bm ls ls' u : layers_wf ls -> layers_wf ls' -> mods_disjoint ls -> relabelled kb bm ls ls' ->
  (forall k, In k (dkeys bm) -> ~ In (snd k) space_keys) -> (forall i, stays bm i) -> settled ls u -> settled ls' u.
Proof. intros W W' D R K S St. exact (stay_settled W W' D R K S St). Qed.
(** With the shipped keyboard, finger map and layouts, and all layers pinned, the
    only condition is on the texts typed with the old layout. *)
Theorem C90_shipped d (p : params Qnum) it fnm rnd ord ordm thr (tol : carrier Qnum) fuel g t ts out e :
  In d all_layouts ->
  (forall l, Permutation (ord l) l) -> (forall s, Permutation (ordm s) (elems s)) ->
  (g_limit g <= 0)%Z -> g_mutations g = [] -> g_randomize g = false ->
  (forall i, i < List.length (shipped_layers d) -> In (Z.of_nat i, None) (g_pins g)) ->
  typed_triads defaultFingermap kb_names (shipped_layers d) t = Ok ts ->
  optimize (nm:=Qnum) fnm is_letter rnd ord ordm thr tol fuel g (layout_new (shipped_layers d)) kb_names (shipped_model p it) ts = Ok (out, e) ->
  (exists u, assigned (shipped_layers d) u) -> (forall u, used (shipped_layers d) t u -> settled (shipped_layers d) u) ->
  exists ts' old new, typed_triads defaultFingermap kb_names (reread out) t = Ok ts' /\
    effort_of (shipped_model p it) ts old /\ effort_of (shipped_model p it) ts' new /\ (new <= old)%Q.
Proof.
  intros Hd Ho Hom Hlim Hmut Hrnd Hpin T E Hex St.
  destruct (shipped_facts d Hd) as (Wf & Dj & Lo & Inc).
  assert (Hkb : NoDup kb_names) by (apply nodupb_NoDup, kb_names_nodup).
  assert (Hmods : Forall (fun l => lmods l <> []) (shipped_layers d)).
  { assert (B : forallb (fun d => forallb (fun l => match lmods l with [] => false | _ => true end) (shipped_layers d)) all_layouts = true)
      by (vm_compute; reflexivity).
    rewrite forallb_forall in B. specialize (B d Hd). rewrite forallb_forall in B. apply Forall_forall. intros l Hl En.
    specialize (B l Hl). rewrite En in B. discriminate. }
  assert (Let : forall b, is_letter b = true -> ~ In b space_keys).
  { assert (B : forallb (fun b => negb (is_letter b)) space_keys = true) by (vm_compute; reflexivity).
    intros b Hb Hs. rewrite forallb_forall in B. specialize (B b Hs). rewrite Hb in B. discriminate. }
  assert (Sp : incl space_keys kb_names) by (apply inclb_ok; vm_compute; reflexivity).
  set (ls := shipped_layers d) in *. clearbody ls.
  assert (Hin : Forall (fun l => Forall (fun b => In b kb_names) (dkeys (llayout l))) ls).
  { apply Forall_forall. intros l Hl. apply Forall_forall. intros b Hb. apply Inc. unfold mentioned. apply in_flat_map. exists l. split; [exact Hl|].
    apply in_app_iff. right. exact Hb. }
  assert (Fi : fingered defaultFingermap ls) by (intros x Hx; apply kb_fingered, Inc, Hx).
  apply (C90_never_harder Ho Hom fm_small Sp kb_fingered Let Hkb Lo Dj Hmods Wf Hin Fi Hex Hlim Hmut Hrnd T E).
  intros u Hu. split; [now apply St|].
  destruct (optimize_spec Ho Hom Hkb Dj Hmods E) as (bm0 & start & best & fin & e0 & eb & Em & Es & One & Rs & Rb & _ & Pk & Rel & W & _).
  rewrite Hmut in Em. cbn in Em. injection Em as <-.
  assert (Id : forall i, stays (initial_map (layout_new ls) kb_names is_letter) i).
  { intros i k x Hi G. apply (initial_goes ls is_letter Hkb) in G as [-> _]. exact Hi. }
  apply (C90_stays Wf W Dj Rel); [| |now apply St].
  - rewrite (proj1 Rb). intros k Hk. apply dget_key in Hk as [v G]. apply (initial_goes ls is_letter Hkb) in G as (_ & _ & Ik & Mk).
    unfold mutable_key in Mk. apply andb_prop in Mk as [Mk _]. now apply Let.
  - intros i k x Hi G. assert (Hk : In k (dkeys best)) by (apply dget_key; eauto). rewrite (proj1 Rb) in Hk.
    apply dget_key in Hk as [v Gk]. apply (initial_goes ls is_letter Hkb) in Gk as (_ & Lt & _). rewrite Hi in Lt.
    refine (proj2 Pk i _ (Id i) k x Hi G). apply (C34_expanded fnm kb_names (g_pins g) i ""). now apply Hpin.
Qed.
(** A layout with two shift keys: the optimizer always takes the first one
    (optimize.py:109), whereas the writer takes the one of the other hand.  The
    energy halves, the text gets much harder to type. *)
Definition small2 : params Qnum :=
  mkParams Qnum 1%Q 1%Q 1%Q 1%Q 1%Q 1%Q 1%Q 0%Q 1%Q 1%Q 2%Q (pHand mod01) [1; 1; 0; 1; 2]%Q (pFinger mod01) 1%Q 1%Q 1%Q
    [("Dl3", 0%Q); ("Dr3", 1%Q); ("El_shift", 4%Q); ("Er_shift", 40%Q)].
Definition m2 : model Qnum := shipped_model small2 comb_iter.
Definition kb2 : list string := ["Dl3"; "Dr3"; "Cl_tab"; "CD_ret"; "Fl_space"; "Fr_space"].
Definition shifted (mods : list bset) : list layer :=
  [mkLayer [frozenset []] [("Fl_space", CText [32%N]); ("Fr_space", CText [32%N])];
   mkLayer mods [("Dr3", CText [65%N])]].
Definition letters2 (b : string) : bool := mem b ["Dl3"; "Dr3"].
Definition text2 : text := [65; 65; 32; 65]%N.
Definition g1 : opt_args := mkArgs 0 1 false [] [].
Definition run2 ls ts := optimize (nm:=Qnum) (fun a b => eqb a b) letters2 (dice [2; 3]) (fun l => l) elems thousandth (1#10000)%Q 5 g1 (layout_new ls) kb2 m2 ts.
Definition two_shifts : list bset := [frozenset ["El_shift"]; frozenset ["Er_shift"]].
Lemma all_scored m (l : list (triad * Z)) : forallb (fun tv => match scoreQ m (fst tv) with Some _ => true | None => false end) l = true ->
  Forall (fun tv => scoreQ m (fst tv) <> None) l.
Proof. intros H. apply Forall_forall. intros x Hx E. pose proof (proj1 (forallb_forall _ _) H x Hx) as B. cbv beta in B. rewrite E in B. discriminate B. Qed.
Theorem C90_needs_one_way : exists ts out e ts' old new,
  typed_triads defaultFingermap kb2 (shifted two_shifts) text2 = Ok ts /\ run2 (shifted two_shifts) ts = Ok (out, e) /\
  typed_triads defaultFingermap kb2 (reread out) text2 = Ok ts' /\ effort_of m2 ts old /\ effort_of m2 ts' new /\
  (e < old)%Q /\ (old < new)%Q.
Proof.
  set (P := match typed_triads defaultFingermap kb2 (shifted two_shifts) text2 with Ok ts => 
    match run2 (shifted two_shifts) ts with Ok (out, e) =>
      match typed_triads defaultFingermap kb2 (reread out) text2 with
      | Ok ts' => Some (ts, out, e, ts', mean scoreQ m2 (in_Q ts), mean scoreQ m2 (in_Q ts'))
      | _ => None end | _ => None end | _ => None end).
  assert (B : match P with Some (ts, out, e, ts', old, new) =>
      forallb (fun tv => match scoreQ m2 (fst tv) with Some _ => true | None => false end) (ts ++ ts') = true /\ (e ?= old)%Q = Lt /\ (old ?= new)%Q = Lt
    | None => False end) by (vm_compute; auto).
  unfold P in B. clear P.
  destruct (typed_triads defaultFingermap kb2 (shifted two_shifts) text2) as [ts|] eqn:E1; [|contradiction].
  destruct (run2 (shifted two_shifts) ts) as [[out e]|] eqn:E2; [|contradiction].
  destruct (typed_triads defaultFingermap kb2 (reread out) text2) as [ts'|] eqn:E3; [|contradiction].
  destruct B as (B1 & B2 & B3). apply all_scored in B1. apply Forall_app in B1 as [F1 F2].
  exists ts, out, e, ts', (mean scoreQ m2 (in_Q ts)), (mean scoreQ m2 (in_Q ts')).
  split; [reflexivity|]. split; [exact E2|]. split; [exact E3|]. split; [split; [exact F1|reflexivity]|]. split; [split; [exact F2|reflexivity]|].
  split; assumption.
Qed.
Lemma says_here ls k v : says ls k v -> exists i l, nth_error ls i = Some l /\ In (snd k, v) (llayout l) /\ i = fst k.
Proof. intros (l & H & G). exists (fst k), l. split; [exact H|]. split; [now apply dget_In|reflexivity]. Qed.
Example C90_example :
  List.length defaultFingermap < 128 /\ incl space_keys kb2 /\ incl kb2 (dkeys defaultFingermap) /\ (forall b, letters2 b = true -> ~ In b space_keys) /\
  NoDup kb2 /\ (let ls := shifted [frozenset ["El_shift"]] in
    layers_ok ls /\ mods_disjoint ls /\ plain ls /\ layers_wf ls /\
    Forall (fun l => Forall (fun b => In b kb2) (dkeys (llayout l))) ls /\ fingered defaultFingermap ls /\ (exists u, assigned ls u) /\
    exists ts out e, typed_triads defaultFingermap kb2 ls text2 = Ok ts /\ run2 ls ts = Ok (out, e) /\
      reread out <> ls /\ (e < mean scoreQ m2 (in_Q ts))%Q).
Proof.
  split; [vm_compute; lia|]. split; [apply inclb_ok; vm_compute; reflexivity|]. split; [apply inclb_ok; vm_compute; reflexivity|].
  split. { intros b H. apply mem_In in H. cbn in H. destruct H as [<-|[<-|[]]]; vm_compute; intros H; repeat destruct H as [H|H]; try discriminate H; contradiction. }
  split; [apply nodupb_NoDup; vm_compute; reflexivity|]. cbv zeta.
  split. { repeat constructor; cbn; try discriminate; intros _; discriminate. }
  split; [apply mods_disjointb_ok; vm_compute; reflexivity|].
  split.
  { split; [repeat (constructor; [eexists; reflexivity|]); constructor|]. intros [i b] [i' b'] u H H'.
    apply says_here in H as (j & l & Hj & Hin & Ej). apply says_here in H' as (j' & l' & Hj' & Hin' & Ej'). cbn [fst snd] in *. subst j j'.
    destruct i as [|[|[|?]]]; cbn in Hj; try discriminate Hj; injection Hj as <-; cbn in Hin;
    destruct i' as [|[|[|?]]]; cbn in Hj'; try discriminate Hj'; injection Hj' as <-; cbn in Hin';
    repeat (destruct Hin as [Hin|Hin]); repeat (destruct Hin' as [Hin'|Hin']); try contradiction;
    injection Hin as <- <-; inversion Hin'; subst; auto; right; cbn; auto. }
  split; [apply layers_wfb_ok; vm_compute; reflexivity|].
  split. { repeat (constructor; [repeat (constructor; [cbn; tauto|]); constructor|]). constructor. }
  split; [apply inclb_ok; vm_compute; reflexivity|].
  split. { exists [65%N], "Dr3". eexists. split; [right; left; reflexivity|left; reflexivity]. }
  set (ls := shifted [frozenset ["El_shift"]]).
  assert (B : match typed_triads defaultFingermap kb2 ls text2 with Ok ts => 
    match run2 ls ts with Ok (out, e) => (match reread out with [_; l] => dget (llayout l) "Dr3" | _ => Some COther end = None /\ (e ?= mean scoreQ m2 (in_Q ts))%Q = Lt)
      | _ => False end | _ => False end) by (vm_compute; auto).
  destruct (typed_triads defaultFingermap kb2 ls text2) as [ts|] eqn:E1; [|contradiction].
  destruct (run2 ls ts) as [[out e]|] eqn:E2; [|contradiction]. exists ts, out, e. split; [reflexivity|]. split; [exact E2|].
  destruct B as [B1 B2]. split; [|exact B2]. intros X. rewrite X in B1. vm_compute in B1. discriminate B1.
Qed.

Lemma single_settled ls u c : layers_wf ls -> mods_disjoint ls -> ways ls u = [c] -> settled ls u.
Proof. intros W D E. left. exists c. intros c' T. apply (types_ways c' u W D) in T. rewrite E in T. destruct T as [<-|[]]. reflexivity. Qed.
Lemma spaces_settled ls u : layers_wf ls -> mods_disjoint ls -> forallb (fun c => inclb (elems (cbtn c)) space_keys) (ways ls u) = true -> settled ls u.
Proof.
  intros W D E. right. intros c' T. apply (types_ways c' u W D) in T. apply inclb_ok. exact (proj1 (forallb_forall _ _) E c' T).
Qed.
(** A word with a space, typed on the layout of the project *)
Definition word : text := [1587; 1604; 1575; 1605; 32; 1587]%N.
Definition g90 : opt_args := mkArgs 0 1 false (map (fun i => (Z.of_nat i, None)) (seq 0 (List.length (shipped_layers data_ar_lulua)))) [].
Definition run90 ts := optimize (nm:=Qnum) (fun a b => eqb a b) is_letter (dice [0; 1; 2; 3; 4; 5]) (fun l => l) elems thousandth (1#10000)%Q 5 g90
  (layout_new (shipped_layers data_ar_lulua)) kb_names (shipped_model mod01 comb_iter) ts.
Example C90_shipped_example : In data_ar_lulua all_layouts /\
  (forall i, i < List.length (shipped_layers data_ar_lulua) -> In (Z.of_nat i, None) (g_pins g90)) /\
  (forall u, used (shipped_layers data_ar_lulua) word u -> settled (shipped_layers data_ar_lulua) u) /\
  exists ts out e, typed_triads defaultFingermap kb_names (shipped_layers data_ar_lulua) word = Ok ts /\ List.length ts = 3 /\
    run90 ts = Ok (out, e).
Proof.
  assert (Hd : In data_ar_lulua all_layouts) by (vm_compute; tauto).
  destruct (shipped_facts _ Hd) as (Wf & Dj & Lo & Inc).
  split; [exact Hd|]. split.
  { intros i Hi. unfold g90. cbn [g_pins]. apply in_map_iff. exists i. split; [reflexivity|]. apply in_seq. split; [apply Nat.le_0_l|exact Hi]. }
  split.
  { assert (Fi : fingered defaultFingermap (shipped_layers data_ar_lulua)) by (intros x Hx; apply kb_fingered, Inc, Hx).
    assert (Hex : exists u, assigned (shipped_layers data_ar_lulua) u).
    { exists [1587%N], "Dr3". eexists. split; [left; reflexivity|]. apply dget_In. vm_compute. reflexivity. }
    pose proof (@C12_greedy defaultFingermap (shipped_layers data_ar_lulua) None word fm_small Lo Hex Fi I) as G.
    assert (X : map ev_token (fst (fst (type_text defaultFingermap (layout_new (shipped_layers data_ar_lulua)) None word))) =
      [TMatch [1587]; TMatch [1604]; TMatch [1575]; TMatch [1605]; TMatch [32]; TMatch [1587]]%N) by (vm_compute; reflexivity).
    rewrite X in G. intros u (toks & G' & Hu). rewrite (@C12_unique _ _ _ _ G' G) in Hu.
    assert (S : u = [1587%N] \/ u = [1604%N] \/ u = [1575%N] \/ u = [1605%N] \/ u = [32%N]).
    { cbn [In] in Hu. clear - Hu. repeat (destruct Hu as [Hu|Hu]; [injection Hu as <-; tauto|]). destruct Hu. }
    destruct S as [->|[->|[->|[->| ->]]]]; [eapply single_settled; [exact Wf|exact Dj|vm_compute; reflexivity]..|].
    apply spaces_settled; [exact Wf|exact Dj|vm_compute; reflexivity]. }
  destruct (typed_triads defaultFingermap kb_names (shipped_layers data_ar_lulua) word) as [ts|] eqn:E1.
  2: { assert (B : is_ok (typed_triads defaultFingermap kb_names (shipped_layers data_ar_lulua) word) = true) by (vm_compute; reflexivity). rewrite E1 in B. discriminate B. }
  assert (B : match typed_triads defaultFingermap kb_names (shipped_layers data_ar_lulua) word with
    | Ok ts => List.length ts = 3 /\ is_ok (run90 ts) = true | Raise _ => False end) by (vm_compute; auto).
  rewrite E1 in B. destruct B as [B1 B2]. destruct (run90 ts) as [[out e]|] eqn:E2; [|discriminate B2].
  exists ts, out, e. auto.
Qed.

Print Assumptions C90_retyped.
Print Assumptions C90_plain.
Print Assumptions C90_never_harder.
Print Assumptions C90_never_harder_plain.
Print Assumptions C90_stays.
Print Assumptions C90_shipped.
Print Assumptions C90_needs_one_way.
