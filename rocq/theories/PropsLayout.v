(** Properties C06-C10 (lulua/layout.py). *)
From Verif Require Import Base LayoutModel LayoutSpec LayoutProofs DataLayouts ShippedProofs.
Open Scope string_scope.
Open Scope list_scope.

Definition ex_layers : list layer := [
  mkLayer [frozenset []] [("Dl1", CText [97%N]); ("Dl2", CText [97%N; 98%N]); ("Dl3", COther)];
  mkLayer [frozenset ["El_shift"]; frozenset ["Er_shift"]] [("Dl1", CText [65%N]); ("Dl3", CText [97%N])]].
Definition combs_view (cs : list comb) := map (fun c => (elems (cmod c), elems (cbtn c))) cs.

(** C06: longest match. *)
Theorem C06_lookup ls buf t cs :
  lookup (layout_new ls) buf = Ok (t, cs) -> longest_assigned ls buf t.
Proof. intros H. apply lookup_ok in H. apply H. Qed.
Theorem C06_lookup_complete ls buf t :
  longest_assigned ls buf t -> exists cs, lookup (layout_new ls) buf = Ok (t, cs).
Proof. intros H. exists (ways ls t). apply lookup_ok. auto. Qed.
Theorem C06_lookup_error ls buf e :
  lookup (layout_new ls) buf = Raise e <-> e = KeyError /\ unmapped ls buf.
Proof. apply lookup_error. Qed.
Example C06_example :
  res_map (fun p => (fst p, combs_view (snd p))) (lookup (layout_new ex_layers) [97; 98; 99]%N) =
    Ok ([97; 98]%N, [([], ["Dl2"])]) /\
  res_map (fun p => (fst p, combs_view (snd p))) (lookup (layout_new ex_layers) [97; 99]%N) =
    Ok ([97]%N, [([], ["Dl1"]); (["El_shift"], ["Dl3"]); (["Er_shift"], ["Dl3"])]) /\
  lookup (layout_new ex_layers) [98; 97]%N = Raise KeyError.
Proof. vm_compute. repeat split. Qed.

(** C07: the combinations returned are exactly the ways to type the text, and
    getText inverts them. *)
Theorem C07_combinations ls buf t cs :
  lookup (layout_new ls) buf = Ok (t, cs) -> cs = ways ls t.
Proof. intros H. apply lookup_ok in H. apply H. Qed.
Theorem C07_ways_meaning ls t c : In c (ways ls t) <->
  exists l b m, In l ls /\ In (b, CText t) (llayout l) /\ In m (lmods l) /\ c = mkComb m (frozenset [b]).
Proof. apply in_ways. Qed.
Theorem C07_getText_inverse ls t m b :
  layers_wf ls -> mods_disjoint ls ->
  (In (mkComb m (frozenset [b])) (ways ls t) <-> getText (layout_new ls) (mkComb m (frozenset [b])) = Ok (CText t)).
Proof. apply getText_ways. Qed.
(** Without the disjointness assumption lookup and getText disagree. *)
Theorem C07_needs_disjoint : exists ls t c,
  layers_wf ls /\ layers_ok ls /\ In c (ways ls t) /\ getText (layout_new ls) c <> Ok (CText t).
Proof.
  exists [mkLayer [frozenset []] [("Dl1", CText [97%N])]; mkLayer [frozenset []] [("Dl1", CText [98%N])]], [97%N],
    (mkComb (frozenset []) (frozenset ["Dl1"])).
  split; [apply layers_wfb_ok; reflexivity|]. split; [apply layers_okb_ok; reflexivity|].
  split; [left; reflexivity|]. vm_compute. discriminate.
Qed.
Example C07_example : layers_wf ex_layers /\ mods_disjoint ex_layers /\
  In (mkComb (frozenset ["Er_shift"]) (frozenset ["Dl3"])) (ways ex_layers [97%N]).
Proof.
  split; [apply layers_wfb_ok; reflexivity|]. split; [apply mods_disjointb_ok; reflexivity|].
  apply mem_In. vm_compute. reflexivity.
Qed.
(** All shipped layouts meet the hypotheses. *)
Theorem C07_shipped d : In d all_layouts ->
  layers_wf (shipped_layers d) /\ mods_disjoint (shipped_layers d) /\ layers_ok (shipped_layers d) /\
  incl (mentioned (shipped_layers d)) kb_names.
Proof. apply shipped_facts. Qed.

(** C08: modifiers. *)
Theorem C08_modifierToLayer ls m i l :
  modifierToLayer (layout_new ls) m = Ok (i, l) <->
  nth_error ls i = Some l /\ In m (lmods l) /\
  forall j l', i < j -> nth_error ls j = Some l' -> ~ In m (lmods l').
Proof. apply modifierToLayer_ok. Qed.
Theorem C08_modifierToLayer_error ls m e :
  modifierToLayer (layout_new ls) m = Raise e <-> e = KeyError /\ forall l, In l ls -> ~ In m (lmods l).
Proof. apply modifierToLayer_error. Qed.
Theorem C08_isModifier ls m : isModifier (layout_new ls) m = true <-> exists l, In l ls /\ In m (lmods l).
Proof. apply isModifier_spec. Qed.
Theorem C08_getButtonText ls b :
  length (getButtonText (layout_new ls) b) = length ls /\
  forall i l, nth_error ls i = Some l ->
    (forall v, dict_wf (llayout l) -> In (b, v) (llayout l) -> nth_error (getButtonText (layout_new ls) b) i = Some (Some v)) /\
    (~ In b (map fst (llayout l)) -> nth_error (getButtonText (layout_new ls) b) i = Some None).
Proof.
  unfold getButtonText. rewrite layout_new_layers, map_length. split; [reflexivity|]. intros i l Hl. split.
  - intros v Hw Hi. rewrite (map_nth_error _ _ _ Hl). f_equal. apply dget_In_iff; assumption.
  - intros Hn. rewrite (map_nth_error _ _ _ Hl). f_equal. apply dget_None. exact Hn.
Qed.
Example C08_example :
  isModifier (layout_new ex_layers) (frozenset ["Er_shift"]) = true /\
  isModifier (layout_new ex_layers) (frozenset ["Er_shift"; "El_shift"]) = false /\
  res_map fst (modifierToLayer (layout_new ex_layers) (frozenset ["El_shift"])) = Ok 1 /\
  getButtonText (layout_new ex_layers) "Dl2" = [Some (CText [97; 98]%N); None].
Proof. vm_compute. repeat split. Qed.

(** C09: specialization. *)
Theorem C09_specialize ord names g : (forall s, Permutation (ord s) (elems s)) -> layers_wf (glayers g) ->
  incl (mentioned (glayers g)) names ->
  exists L, specialize ord names g = Ok L /\ layers L = glayers g /\
    forall buf, lookup L buf = lookup (layout_new (glayers g)) buf.
Proof.
  intros Ho Hw Hi. exists (layout_new (glayers g)). split; [apply specialize_ok; assumption|].
  split; [apply layout_new_layers|reflexivity].
Qed.
Theorem C09_specialize_error ord names g : (forall s, Permutation (ord s) (elems s)) ->
  ~ incl (mentioned (glayers g)) names -> specialize ord names g = Raise KeyError.
Proof. apply specialize_error. Qed.
Example C09_example : (forall s, Permutation (rev (elems s)) (elems s)) /\
  layers_wf ex_layers /\ incl (mentioned ex_layers) kb_names /\
  ~ incl (mentioned ex_layers) ["Dl1"; "Dl2"].
Proof.
  split; [intros s; symmetry; apply Permutation_rev|]. split; [apply layers_wfb_ok; reflexivity|].
  split; [apply inclb_ok; vm_compute; reflexivity|].
  intros H. specialize (H "Dl3"). cbn in H. destruct H as [H|[H|[]]]; try discriminate. auto.
Qed.

(** C10: serialization. *)
Theorem C10_roundtrip ord g : (forall s, Permutation (ord s) (elems s)) ->
  generic_deserialize (generic_serialize ord g) = g.
Proof. apply generic_roundtrip. Qed.
Theorem C10_len g : generic_len g = length (generic_buttons g).
Proof. apply generic_len_buttons. Qed.
Example C10_example :
  generic_len (generic_deserialize data_ar_lulua) = 116 /\
  map (fun l => map elems (lmods l)) (glayers (generic_deserialize data_ar_ergoarabic)) =
    [[[]]; [["El_shift"]; ["Er_shift"]]; [["Fr_altgr"]]; [["El_shift"; "Fr_altgr"]; ["Er_shift"; "Fr_altgr"]]].
Proof. vm_compute. split; reflexivity. Qed.

Print Assumptions C06_lookup.
Print Assumptions C06_lookup_complete.
Print Assumptions C06_lookup_error.
Print Assumptions C07_combinations.
Print Assumptions C07_ways_meaning.
Print Assumptions C07_getText_inverse.
Print Assumptions C07_needs_disjoint.
Print Assumptions C07_shipped.
Print Assumptions C08_modifierToLayer.
Print Assumptions C08_modifierToLayer_error.
Print Assumptions C08_isModifier.
Print Assumptions C08_getButtonText.
Print Assumptions C09_specialize.
Print Assumptions C09_specialize_error.
Print Assumptions C10_roundtrip.
Print Assumptions C10_len.
