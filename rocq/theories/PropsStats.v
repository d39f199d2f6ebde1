(** Properties C17-C24 (lulua/stats.py). *)
From Coq Require Import Permutation.
From Verif Require Import Base LayoutModel LayoutSpec LayoutProofs DataLayouts DataFingermap ShippedProofs
  WriterModel WriterSpec WriterProofs StatsModel StatsSpec StatsProofs MergeProofs StatsAll HeapModel HeapSpec HeapProofs PropsLayout PropsWriter.
Open Scope string_scope.
Open Scope list_scope.

(** C17 *)
Theorem C17_counts es : Forall proper es -> exists s, foldM simple_process es simple_init = Ok s /\
  counts (s_buttons s) (fun b => sumZ (presses b) es) /\
  counts (s_combs s) (fun c => sumZ (is_press c) es) /\
  counts (s_unknown s) (fun ch => sumZ (is_skip ch) es) /\
  (ctotal (s_combs s) + ctotal (s_unknown s))%Z = Z.of_nat (length es).
Proof.
  intros Hp. destruct (simple_inv Hp) as (s & E & A & B & C). exists s. split; [exact E|].
  split; [eapply counts_ext; [|exact A]; intros; apply presses_sum|]. split; [eapply counts_ext; [|exact B]; intros; apply combs_sum|].
  split; [eapply counts_ext; [|exact C]; intros; apply skips_sum|].
  rewrite (counts_total _ B), (counts_total _ C), <- Nat2Z.inj_add. f_equal. clear -Hp.
  induction Hp as [|[c| |] es H Hp IH]; cbn in *; [reflexivity|lia..|]. elim H. reflexivity.
Qed.
Theorem C17_rejects es es' : Forall proper es -> foldM simple_process (es ++ SOther :: es') simple_init = Raise ValueError.
Proof. intros Hp. destruct (simple_inv Hp) as (s & E & _). rewrite foldM_app, E. reflexivity. Qed.
(** All four statistics objects fed with the events of typing any text with any
    shipped layout: nothing is raised and every counter is as expected. *)
Theorem C17_typed d letter last t : In d all_layouts ->
  let L := layout_new (shipped_layers d) in
  let es := map ev_obj (fst (fst (type_text defaultFingermap L last t))) in
  exists s0 s, makeCombined kb_names = Ok s0 /\ foldM (stats_process defaultFingermap letter L) es s0 = Ok s /\
    forall x, recorded s x = nonzero (expected defaultFingermap letter L spaces es x).
Proof.
  intros Hd. cbn zeta. destruct (shipped_facts _ Hd) as (A & B & C & D). apply stats_all.
  - apply inclb_ok. vm_compute. reflexivity.
  - apply typed_handled; auto. intros b Hb. apply kb_fingered, D, Hb.
Qed.
Definition ex_events : list sevent :=
  [SComb (press1 "Cl1"); SComb (press1 "Cl2"); SComb (press2 "El_shift" "Cr1"); SSkip 88%N; SComb (press1 "Cl1"); SComb (press1 "Fl_space")].
Example C17_example : Forall proper ex_events /\
  res_map (fun s => (cget (s_buttons s) "Cl1", cget (s_buttons s) "El_shift", cget (s_unknown s) 88%N)) (foldM simple_process ex_events simple_init) = Ok (2, 1, 1)%Z.
Proof. split; [|reflexivity]. repeat apply Forall_cons; try apply Forall_nil; discriminate. Qed.

(** C18 *)
Theorem C18_hand_runs fm es : Forall (pressable fm) es -> exists s, foldM (runlen_process fm) es runlen_init = Ok s /\
  forall h n, nlook (r_hand s) h n = nonzero (per_stretch (fun s => completed (hands_of fm s)) es (h, n)).
Proof.
  intros Hp. destruct (runlen_inv Hp) as (s & E & [R1 R2] & _). exists s. split; [exact E|]. intros h n.
  rewrite (nested_nonzero h n R1) by apply all_directions_In. rewrite count_concat. reflexivity.
Qed.
(** [completed] drops the last run of the run length encoding, which is
    characterised by: *)
Theorem C18_runs {A} `{EqDec A} (l : list A) r : is_rle l r <-> r = rle l.
Proof. split; [|intros ->; apply rle_is_rle]. intros Hr. eapply is_rle_unique; [exact Hr|apply rle_is_rle]. Qed.
Example C18_example : Forall (pressable defaultFingermap) ex_events /\
  res_map (fun s => nlook (r_hand s) LEFT 2) (foldM (runlen_process defaultFingermap) ex_events runlen_init) = Ok (Some 1%Z).
Proof.
  split; [|reflexivity]. repeat apply Forall_cons; try apply Forall_nil; try exact I; cbn [pressable];
    (eexists; split; [reflexivity|apply mem_In; vm_compute; reflexivity]).
Qed.

(** C19: the run is counted for the finger that ended it. *)
Theorem C19_finger_runs_partial fm es : Forall (pressable fm) es -> exists s, foldM (runlen_process fm) es runlen_init = Ok s /\
  forall hf n, nlook (r_finger s) hf n = nonzero (per_stretch (fun s => credited (fingers_of fm s)) es (hf, n)).
Proof.
  intros Hp. destruct (runlen_inv Hp) as (s & E & [R1 R2] & _). exists s. split; [exact E|]. intros h n.
  rewrite (nested_nonzero h n R2) by apply all_hf_In. rewrite count_concat. reflexivity.
Qed.
Theorem C19_finger_runs_refuted : exists es s hf n, Forall (pressable defaultFingermap) es /\
  foldM (runlen_process defaultFingermap) es runlen_init = Ok s /\
  nlook (r_finger s) hf n <> nonzero (per_stretch (fun s => completed (fingers_of defaultFingermap s)) es (hf, n)).
Proof.
  destruct (@C19_finger_runs_partial defaultFingermap ex_events (proj1 C18_example)) as (s & E & H).
  exists ex_events, s, (LEFT, LITTLE), 1. split; [apply C18_example|]. split; [exact E|]. rewrite H. vm_compute. discriminate.
Qed.

(** C20 *)
Theorem C20_triads kb es : incl ["Fl_space"; "Fr_space"; "CD_ret"; "Cl_tab"] kb -> Forall single es ->
  exists s0 s, triads_init kb = Ok s0 /\ foldM triads_process es s0 = Ok s /\
    counts (t_triads s) (per_stretch (fun s => windows (filter (counted spaces) s)) es) /\
    ctotal (t_triads s) = sumZ (fun s => Z.max 0 (Z.of_nat (length (filter (counted spaces) s)) - 2)) (stretches es).
Proof.
  intros Hi Hs. destruct (@triads_inv spaces es Hs) as (s & E & _ & _ & C). exists (mkTriads [] [] spaces), s.
  split; [apply triads_init_ok, Hi|]. split; [exact E|]. split.
  - eapply counts_ext; [|exact C]. intros k. unfold per_stretch. rewrite count_concat. reflexivity.
  - rewrite (counts_total _ C). clear. induction (stretches es) as [|x l IH]; [reflexivity|]. cbn [flat_map sumZ fold_right].
    rewrite app_length, windows_length, Nat2Z.inj_add, IH. unfold sumZ. lia.
Qed.
Theorem C20_windows {A} (l : list A) i : nth_error (windows l) i =
  match nth_error l i, nth_error l (1 + i), nth_error l (2 + i) with Some a, Some b, Some c => Some [a; b; c] | _, _, _ => None end.
Proof.
  revert i; induction l as [|a l IH]; intros i; [destruct i; reflexivity|]. destruct l as [|b [|c l]].
  - destruct i as [|[|i]]; reflexivity.
  - destruct i as [|[|i]]; cbn; try reflexivity. destruct (nth_error [] i) eqn:E; [destruct i; discriminate|reflexivity].
  - change (windows (a :: b :: c :: l)) with ([a; b; c] :: windows (b :: c :: l)). destruct i as [|i]; [reflexivity|]. cbn [nth_error]. apply IH.
Qed.
Example C20_example : Forall single ex_events /\ incl ["Fl_space"; "Fr_space"; "CD_ret"; "Cl_tab"] kb_names /\
  res_map (fun s => cget (t_triads s) [press1 "Cl1"; press1 "Cl2"; press2 "El_shift" "Cr1"]) (foldM triads_process ex_events (mkTriads [] [] spaces)) = Ok 1%Z.
Proof.
  split; [|split; [apply inclb_ok|]; vm_compute; reflexivity]. repeat apply Forall_cons; try apply Forall_nil; try exact I; eexists; reflexivity.
Qed.

(** C21 *)
Theorem C21_words letter L es : Forall (typable L) es -> exists s, foldM (words_process letter L) es words_init = Ok s /\
  counts (w_words s) (per_stretch (fun s => finished_words letter (flat_map (typed L) s)) es).
Proof.
  intros Hp. destruct (@words_inv letter L es Hp) as (s & E & _ & C). exists s. split; [exact E|].
  eapply counts_ext; [|exact C]. intros k. unfold per_stretch. rewrite count_concat. reflexivity.
Qed.
(** [split_at] cuts exactly at the non-letters. *)
Fixpoint interleave (ws : list text) (ds : list N) : text :=
  match ws, ds with
  | w :: ws', d :: ds' => w ++ d :: interleave ws' ds'
  | w :: _, [] => w
  | [], _ => []
  end.
Theorem C21_split letter t : interleave (split_at letter t) (filter (fun c => negb (letter c)) t) = t /\
  Forall (Forall (fun c => letter c = true)) (split_at letter t) /\
  length (split_at letter t) = S (length (filter (fun c => negb (letter c)) t)).
Proof.
  induction t as [|c t (A & B & C)]; cbn [split_at filter]; [repeat split; repeat constructor|].
  destruct (letter c) eqn:E; cbn [negb].
  - destruct (split_at letter t) as [|w ws]; [discriminate|]. inversion B; subst. split; [|split].
    + destruct (filter _ t) as [|d ds]; cbn in *; congruence.
    + repeat constructor; assumption.
    + exact C.
  - split; [cbn; congruence|]. split; [constructor; [constructor|exact B]|]. cbn [length]. congruence.
Qed.
(** With the letters of stats.py (categories Lo and Mn) a word may carry marks;
    any other character ends it. *)
Theorem C21_marks cat L cs w d : Forall (fun c => typable L (SComb c)) cs -> flat_map (typed L) cs = w ++ [d] -> w <> [] ->
  Forall (fun c => cat c = "Lo" \/ cat c = "Mn") w -> cat d <> "Lo" -> cat d <> "Mn" ->
  res_map w_words (foldM (words_process (is_letter cat) L) (map SComb cs) words_init) = Ok [(w, 1%Z)].
Proof.
  intros Ht E Hw Hl D1 D2.
  assert (F : forall t s, Forall (fun c => is_letter cat c = true) t -> fold_left (words_char (is_letter cat)) t s = mkWords (w_words s) (w_cur s ++ t)).
  { induction t as [|c t IH]; intros s H; cbn [fold_left]; [rewrite app_nil_r; destruct s; reflexivity|]. inversion H as [|? ? H1 H2]; subst.
    rewrite IH by exact H2. unfold words_char. rewrite H1. cbn. rewrite <- app_assoc. reflexivity. }
  assert (G : forall cs s, Forall (fun c => typable L (SComb c)) cs -> foldM (words_process (is_letter cat) L) (map SComb cs) s =
     Ok (fold_left (words_char (is_letter cat)) (flat_map (typed L) cs) s)).
  { clear. induction cs as [|c cs IH]; intros s H; [reflexivity|]. inversion H as [|? ? H1 H2]; subst. destruct H1 as [t Et].
    cbn [map foldM]. unfold words_process at 1. rewrite Et. cbn [bind]. rewrite IH by exact H2. cbn [flat_map]. rewrite fold_left_app.
    assert (typed L c = t) as -> by (unfold typed; rewrite Et; reflexivity). reflexivity. }
  rewrite G by exact Ht. rewrite E, fold_left_app, (F w).
  - assert (X : is_letter cat d = false).
    { destruct (is_letter cat d) eqn:X; [|reflexivity]. apply mem_In in X. destruct X as [X|[X|[]]]; congruence. }
    unfold words_init. cbn [fold_left w_words w_cur app]. unfold words_char at 1. rewrite X.
    cbn [w_cur w_words]. destruct w; [congruence|]. reflexivity.
  - eapply Forall_impl; [|exact Hl]. intros c [X|X]; apply mem_In; rewrite X; cbn; auto.
Qed.
Definition ex_cat (c : N) : string := if (c =? 32)%N then "Zs" else if (c =? 98)%N then "Mn" else "Lo".
Definition ex_words_layout := layout_new [mkLayer [frozenset []] [("Cl1", CText [97%N]); ("Cl2", CText [98%N]); ("Fl_space", CText [32%N])]].
Definition ex_word_events := [SComb (press1 "Cl1"); SComb (press1 "Cl2"); SComb (press1 "Fl_space"); SComb (press1 "Cl1"); SSkip 88%N; SComb (press1 "Fl_space")].
Example C21_example : Forall (typable ex_words_layout) ex_word_events /\
  res_map w_words (foldM (words_process (fun c => N.ltb 64 c) ex_words_layout) ex_word_events words_init) = Ok [([97; 98]%N, 1%Z)].
Proof. split; [|reflexivity]. repeat apply Forall_cons; try apply Forall_nil; try exact I; eexists; reflexivity. Qed.
Example C21_marks_example : exists cs w d, Forall (fun c => typable ex_words_layout (SComb c)) cs /\ flat_map (typed ex_words_layout) cs = w ++ [d] /\ w <> [] /\
  Forall (fun c => ex_cat c = "Lo" \/ ex_cat c = "Mn") w /\ ex_cat d <> "Lo" /\ ex_cat d <> "Mn".
Proof.
  exists (map (fun b => mkComb (frozenset []) (frozenset [b])) ["Cl1"; "Cl2"; "Fl_space"]), [97; 98]%N, 32%N.
  split; [repeat apply Forall_cons; try apply Forall_nil; eexists; reflexivity|]. split; [reflexivity|]. split; [discriminate|].
  split; [constructor; [left; reflexivity|constructor; [right; reflexivity|constructor]]|split; discriminate].
Qed.

(** C22 *)
Theorem C22_update a b x : stats_wf b -> is_finger x = false -> recorded (stats_update a b) x = oadd (recorded a x) (recorded b x).
Proof. apply update_recorded. Qed.
Theorem C22_combine kb l c x : Forall stats_wf l -> combine_stats kb l = Ok c -> is_finger x = false ->
  recorded c x = osum (fun s => recorded s x) l.
Proof. apply combine_recorded. Qed.
Theorem C22_order kb l l' c : Forall stats_wf l -> Permutation l l' -> combine_stats kb l = Ok c ->
  exists c', combine_stats kb l' = Ok c' /\ forall x, recorded c' x = recorded c x.
Proof.
  intros F P E. destruct (combine_any kb l l' E) as [c' E']. exists c'. split; [exact E'|]. intros x. destruct (is_finger x) eqn:Ex.
  - destruct x; try discriminate. rewrite (combine_finger kb l' _ _ E'), (combine_finger kb l _ _ E). reflexivity.
  - rewrite (@combine_recorded kb l c x F E Ex). rewrite (@combine_recorded kb l' c' x (Permutation_Forall P F) E' Ex).
    symmetry. apply osum_Permutation, P.
Qed.
Theorem C22_grouping kb gs cs c : Forall (Forall stats_wf) gs -> mapM (combine_stats kb) gs = Ok cs -> combine_stats kb cs = Ok c ->
  exists c', combine_stats kb (concat gs) = Ok c' /\ forall x, recorded c x = recorded c' x.
Proof.
  intros F E Ec. destruct (combine_any kb cs (concat gs) Ec) as [c' E']. exists c'. split; [exact E'|]. intros x. destruct (is_finger x) eqn:Ex.
  - destruct x; try discriminate. rewrite (combine_finger kb cs _ _ Ec), (combine_finger kb (concat gs) _ _ E'). reflexivity.
  - rewrite (combine_groups kb x F E Ec Ex). symmetry. apply (@combine_recorded kb); auto. clear -F. induction F; cbn; [constructor|]. apply Forall_app. auto.
Qed.
(** Merging does not disturb what is being counted: events processed afterwards
    add what they would have added without it. *)
Theorem C22_continue fm letter L es a b a' : stats_wf b -> foldM (stats_process fm letter L) es a = Ok a' ->
  exists s, foldM (stats_process fm letter L) es (stats_update a b) = Ok s /\
    (forall x, is_finger x = false -> recorded s x = oadd (recorded a' x) (recorded b x)) /\
    forall hf n, recorded s (CFinger hf n) = recorded a' (CFinger hf n).
Proof. apply continue_recorded. Qed.
(** Everything obtained by processing events and merging is well formed. *)
Theorem C22_reachable fm letter L kb es s0 s l c :
  (makeCombined kb = Ok s0 -> foldM (stats_process fm letter L) es s0 = Ok s -> stats_wf s) /\
  (Forall stats_wf l -> combine_stats kb l = Ok c -> stats_wf c).
Proof. split; [|apply combine_wf]. intros E. apply processed_wf. apply (makeCombined_wf kb E). Qed.
(** The typed updates used here are what the type dispatch of updateDictOp does
    to objects in the heap. *)
Theorem C22_heap_counter {K} `{EqDec K} n h a b (ca cb : list (K * Z)) : a <> b -> is_counter h a ca -> is_counter h b cb ->
  exists h', updHeap (S n) h a b = Ok h' /\ is_counter h' a (updateCounter ca cb) /\ forall x, x <> a -> dget h' x = dget h x.
Proof. apply upd_counter. Qed.
Theorem C22_heap_nested {K} `{EqDec K} n h a addrs b baddrs (ca cb : list (K * list (K * Z))) : is_nested h a addrs ca -> is_nested h b baddrs cb ->
  NoDup addrs -> dict_wf ca -> ~ In a addrs -> (forall x, In x addrs -> ~ In x baddrs) -> ~ In a baddrs -> ~ In b addrs -> a <> b ->
  incl (dkeys cb) (dkeys ca) ->
  exists h', updHeap (S (S n)) h a b = Ok h' /\ is_nested h' a addrs (updateNested ca cb) /\ forall x, ~ In x addrs -> dget h' x = dget h x.
Proof. apply upd_nested. Qed.
Definition ex_stats : allstats :=
  match (do s0 <- makeCombined kb_names; foldM (stats_process defaultFingermap (fun c => N.ltb 64 c) ex_words_layout) ex_word_events s0) with
  | Ok s => s | Raise _ => mkStats simple_init runlen_init (mkTriads [] [] spaces) words_init end.
Example C22_example : stats_wf ex_stats /\
  res_map (fun c => recorded c (CButton "Cl1")) (combine_stats kb_names [ex_stats; ex_stats]) = Ok (Some 4%Z).
Proof.
  split; [|vm_compute; reflexivity]. unfold ex_stats. destruct (makeCombined kb_names) as [s0|] eqn:E; [|discriminate].
  cbn [bind]. destruct (foldM _ ex_word_events s0) as [s|] eqn:Es.
  - apply (proj1 (C22_reachable _ _ _ _ _ s0 s [] s0) E Es).
  - inversion E; subst. vm_compute in Es. discriminate.
Qed.

(** C23 *)
Theorem C23_argument {K} `{EqDec K} n (h : heap (K := K)) a b h' : heap_wf h -> nested_present n h a b -> numeric h b -> disjoint h a b ->
  updHeap n h a b = Ok h' ->
  (forall x, reach h b x -> dget h' x = dget h x) /\ disjoint h' a b /\ (forall x, reach h' b x <-> reach h b x) /\ heap_wf h'.
Proof. apply upd_argument. Qed.
Theorem C23_later {K} `{EqDec K} n m (h : heap (K := K)) a b c h1 h2 : heap_wf h -> nested_present n h a b -> numeric h b -> disjoint h a b ->
  updHeap n h a b = Ok h1 -> nested_present m h1 a c -> numeric h1 c -> disjoint h1 a c -> updHeap m h1 a c = Ok h2 ->
  forall x, reach h b x -> dget h2 x = dget h x.
Proof. apply upd_later. Qed.
(** Object 0: a, 1: b with one nested dictionary 2, 3: c with one nested dictionary 4. *)
Definition ex_heap (a : list (string * val)) : heap (K := string) :=
  [(0, a); (1, [("x", VRef 2)]); (2, [("n", VInt 1%Z)]); (3, [("x", VRef 4)]); (4, [("n", VInt 1%Z)]); (5, [("n", VInt 7%Z)])].
Theorem C23_argument_refuted : exists (h h1 h2 : heap (K := string)) a b c, heap_wf h /\ numeric h b /\ disjoint h a b /\ disjoint h a c /\
  updHeap 3 h a b = Ok h1 /\ updHeap 3 h1 a c = Ok h2 /\ exists x, reach h b x /\ dget h2 x <> dget h x.
Proof.
  exists (ex_heap []). eexists _, _. exists 0, 1, 3.
  assert (R : forall a x, reach (ex_heap []) a x -> x = a \/ (a = 1 /\ x = 2) \/ (a = 3 /\ x = 4)).
  { intros a x. induction 1 as [|x k r Hr IH E]; [auto|]. destruct IH as [->|[[-> ->]|[-> ->]]].
    - unfold entry, ex_heap in E. cbn in E.
      destruct a as [|[|[|[|[|[|a]]]]]]; cbn in E; try discriminate;
        match type of E with (if ?b then _ else _) = _ => destruct b; inversion E; auto end.
    - unfold entry, ex_heap in E. cbn in E. destruct (k =? "n")%string; discriminate.
    - unfold entry, ex_heap in E. cbn in E. destruct (k =? "n")%string; discriminate. }
  split; [|split; [|split; [|split; [|split; [vm_compute; reflexivity|split; [vm_compute; reflexivity|]]]]]].
  - intros a d E. apply dget_In in E. cbn in E. unfold dict_wf.
    repeat (destruct E as [E|E]; [inversion E; subst; apply nodupb_NoDup; reflexivity|]). destruct E.
  - intros x k Hx. apply R in Hx. intros E. destruct Hx as [->|[[_ ->]|[_ ->]]]; unfold entry, ex_heap in E; cbn in E;
      match type of E with (if ?b then _ else _) = _ => destruct b; discriminate end.
  - intros x H1 H2. apply R in H1, H2. destruct H1 as [->|[[? ->]|[? ->]]], H2 as [E|[[? E]|[? E]]]; discriminate.
  - intros x H1 H2. apply R in H1, H2. destruct H1 as [->|[[? ->]|[? ->]]], H2 as [E|[[? E]|[? E]]]; discriminate.
  - exists 2. split; [|vm_compute; discriminate]. econstructor 2; [constructor|]. instantiate (1 := "x"). reflexivity.
Qed.
Example C23_example : nested_present 3 (ex_heap [("x", VRef 5)]) 0 1 /\
  match updHeap 3 (ex_heap [("x", VRef 5)]) 0 1 with Ok h => entry h 5 "n" = Some (VInt 8%Z) | _ => False end.
Proof.
  split; [|reflexivity]. cbn [nested_present]. intros k r E. unfold entry, ex_heap in *. cbn in E |- *.
  destruct (k =? "x")%string eqn:Ek; [|discriminate]. inversion E; subst. exists 5. split; [reflexivity|].
  intros k' r' E'. cbn in E'. destruct (k' =? "n")%string; discriminate.
Qed.

(** C24 *)
Theorem C24_kept_partial kb l c s x z : Forall stats_wf l -> (forall s x z, In s l -> recorded s x = Some z -> (0 < z)%Z) ->
  combine_stats kb l = Ok c -> In s l -> is_finger x = false -> recorded s x = Some z ->
  exists z', recorded c x = Some z' /\ (z <= z')%Z.
Proof.
  intros F Hp E Hs Hx Hz. rewrite (@combine_recorded kb l c x F E Hx). clear E F. apply in_split in Hs as (l1 & l2 & ->).
  rewrite osum_app, osum_cons, Hz.
  assert (G : forall m, (forall q, In q m -> In q (l1 ++ s :: l2)) -> osum (fun s => recorded s x) m = None \/ exists y, osum (fun s => recorded s x) m = Some y /\ (0 < y)%Z).
  { induction m as [|q m IH]; intros Hm; [left; reflexivity|]. rewrite osum_cons. destruct IH as [->|(y & -> & Hy)]; [intros; apply Hm; right; assumption|..].
    all: destruct (recorded q x) as [w|] eqn:Eq; cbn; eauto. 
    - right. exists w. split; [reflexivity|]. eapply Hp; [apply Hm; left; reflexivity|exact Eq].
    - right. exists (w + y)%Z. split; [reflexivity|]. assert (0 < w)%Z; [|lia]. eapply Hp; [apply Hm; left; reflexivity|exact Eq]. }
  assert (G1 := G l1 (fun q Hq => in_or_app _ _ _ (or_introl Hq))).
  assert (G2 := G l2 (fun q Hq => in_or_app l1 (s :: l2) q (or_intror (or_intror Hq)))).
  destruct G1 as [->|(y1 & -> & H1)], G2 as [->|(y2 & -> & H2)]; cbn; eexists; (split; [reflexivity|lia]).
Qed.
(** The stateless counters of the merged parts are those of the whole. *)
Theorem C24_parts fm letter L kb parts s0 ss c : Forall (Forall (handled fm L)) parts ->
  incl ["Fl_space"; "Fr_space"; "CD_ret"; "Cl_tab"] kb -> makeCombined kb = Ok s0 ->
  mapM (fun es => foldM (stats_process fm letter L) es s0) parts = Ok ss -> combine_stats kb ss = Ok c ->
  exists w, foldM (stats_process fm letter L) (concat parts) s0 = Ok w /\
    (forall b, recorded c (CButton b) = recorded w (CButton b)) /\
    (forall k, recorded c (CComb k) = recorded w (CComb k)) /\
    (forall ch, recorded c (CUnknown ch) = recorded w (CUnknown ch)) /\
    forall x, is_finger x = false -> recorded c x = osum (fun es => nonzero (expected fm letter L spaces es x)) parts.
Proof.
  intros Hh Hi E0 Ess Ec. apply mapM_Ok_inv in Ess.
  assert (Hw : Forall stats_wf ss).
  { clear -Ess E0. induction Ess; constructor; [|assumption]. eapply processed_wf; [|eassumption]. apply (makeCombined_wf kb E0). }
  assert (Hall : forall es s, Forall (handled fm L) es -> foldM (stats_process fm letter L) es s0 = Ok s ->
    forall x, recorded s x = nonzero (expected fm letter L spaces es x)).
  { intros es s Hes Es. destruct (@stats_all fm letter L kb es Hi Hes) as (s0' & s' & E0' & Es' & R). assert (s0' = s0) as -> by congruence.
    assert (s' = s) as -> by congruence. exact R. }
  assert (Hc : forall x, is_finger x = false -> recorded c x = osum (fun es => nonzero (expected fm letter L spaces es x)) parts).
  { intros x Hx. rewrite (@combine_recorded kb ss c x Hw Ec Hx). clear -Ess Hh Hall. induction Ess; [reflexivity|]. inversion Hh; subst.
    rewrite !osum_cons, IHEss by assumption. erewrite Hall by eassumption. reflexivity. }
  assert (Hcat : Forall (handled fm L) (concat parts)).
  { clear -Hh. induction Hh; cbn; [constructor|]. apply Forall_app. auto. }
  destruct (@stats_all fm letter L kb (concat parts) Hi Hcat) as (s0' & w & E0' & Es' & R). assert (s0' = s0) as -> by congruence.
  exists w. split; [exact Es'|].
  assert (G : forall x f, (forall e, 0 <= f e)%Z -> (forall es, expected fm letter L spaces es x = sumZ f es) -> is_finger x = false -> recorded c x = recorded w x).
  { intros x f Hf Hx Hfin. rewrite Hc, R by exact Hfin. rewrite Hx. clear -Hx Hf.
    assert (P : forall l, (0 <= sumZ f l)%Z) by (induction l as [|e l IH]; cbn; [lia|]; fold (sumZ f l); specialize (Hf e); lia).
    induction parts as [|p ps IH]; [reflexivity|]. rewrite osum_cons, IH, Hx. cbn [concat].
    assert (Ha : sumZ f (p ++ concat ps) = (sumZ f p + sumZ f (concat ps))%Z).
    { generalize (concat ps). intros m. induction p as [|e p IHp]; cbn; [reflexivity|]. fold (sumZ f (p ++ m)) (sumZ f p). rewrite IHp. lia. }
    rewrite Ha. pose proof (P p). pose proof (P (concat ps)). unfold nonzero.
    destruct (Z.eqb_spec (sumZ f p) 0), (Z.eqb_spec (sumZ f (concat ps)) 0), (Z.eqb_spec (sumZ f p + sumZ f (concat ps)) 0); cbn; try lia; try reflexivity; f_equal; lia. }
  split; [|split; [|split; [|exact Hc]]].
  - intros b. apply (G _ (presses b)); try reflexivity. intros [k| |]; cbn; [|lia..]. destruct (mem b _), (mem b _); lia.
  - intros k. apply (G _ (is_press k)); try reflexivity. intros [k'| |]; unfold is_press; [|lia..]. destruct (eqb k k'); lia.
  - intros k. apply (G _ (is_skip k)); try reflexivity. intros [|k'|]; unfold is_skip; [lia| |lia]. destruct (eqb k k'); lia.
Qed.
(** Finger run lengths are never kept. *)
Theorem C24_fingers_dropped kb l c hf n : combine_stats kb l = Ok c -> recorded c (CFinger hf n) = None.
Proof. apply combine_finger. Qed.
Theorem C24_kept_refuted : exists l c s x z, Forall stats_wf l /\ combine_stats kb_names l = Ok c /\ In s l /\ recorded s x = Some z /\ recorded c x = None.
Proof.
  exists [ex_stats]. eexists. exists ex_stats, (CFinger (LEFT, RING) 1). eexists. split; [constructor; [apply C22_example|constructor]|].
  split; [vm_compute; reflexivity|]. split; [left; reflexivity|]. split; vm_compute; reflexivity.
Qed.
Example C24_example : Forall (handled defaultFingermap ex_words_layout) ex_word_events.
Proof.
  repeat apply Forall_cons; try apply Forall_nil; (split; [|try exact I; eexists; reflexivity]); try exact I;
  (eexists; split; [reflexivity|apply mem_In; vm_compute; reflexivity]).
Qed.
Print Assumptions C17_counts.
Print Assumptions C17_rejects.
Print Assumptions C17_typed.
Print Assumptions C18_hand_runs.
Print Assumptions C18_runs.
Print Assumptions C19_finger_runs_partial.
Print Assumptions C19_finger_runs_refuted.
Print Assumptions C20_triads.
Print Assumptions C20_windows.
Print Assumptions C21_words.
Print Assumptions C21_split.
Print Assumptions C21_marks.
Print Assumptions C22_continue.
Print Assumptions C22_update.
Print Assumptions C22_combine.
Print Assumptions C22_order.
Print Assumptions C22_grouping.
Print Assumptions C22_reachable.
Print Assumptions C22_heap_counter.
Print Assumptions C22_heap_nested.
Print Assumptions C23_argument.
Print Assumptions C23_later.
Print Assumptions C23_argument_refuted.
Print Assumptions C24_kept_partial.
Print Assumptions C24_parts.
Print Assumptions C24_fingers_dropped.
Print Assumptions C24_kept_refuted.
