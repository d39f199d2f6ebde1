(** Facts about the layouts and the keyboard shipped with lulua, obtained by
    computation from the generated tables (a finite domain). *)
From Coq Require Import QArith.
From Verif Require Import Base KeyboardModel LayoutModel LayoutSpec LayoutProofs DataKeyboard DataLayouts.
Close Scope Q_scope.

Definition kb_names : list string := map kb_name (flat_map (fun r => fst r ++ snd r) ibmpc105).
Definition shipped_layers (d : generic_data) : list layer := glayers (generic_deserialize d).

Definition layers_wfb (ls : list layer) : bool := forallb (fun l => nodupb (dkeys (llayout l))) ls.
Lemma layers_wfb_ok ls : layers_wfb ls = true -> layers_wf ls.
Proof.
  unfold layers_wfb, layers_wf. rewrite forallb_forall, Forall_forall. intros H l Hl. apply nodupb_NoDup, H, Hl.
Qed.
Fixpoint mods_disjointb (ls : list layer) : bool :=
  match ls with
  | [] => true
  | l :: ls' => forallb (fun m => forallb (fun l' => negb (mem m (lmods l'))) ls') (lmods l) && mods_disjointb ls'
  end.
Lemma mods_disjointb_ok ls : mods_disjointb ls = true -> mods_disjoint ls.
Proof.
  unfold mods_disjoint. induction ls as [|x ls IH]; cbn; intros H i j l l' m Hi Hj Hm Hm'; [destruct i; discriminate|].
  apply andb_true_iff in H as [H1 H2]. rewrite forallb_forall in H1.
  destruct i as [|i], j as [|j]; cbn in Hi, Hj; auto.
  - inversion Hi; subst. specialize (H1 _ Hm). rewrite forallb_forall in H1.
    specialize (H1 _ (nth_error_In _ _ Hj)). apply negb_true_iff, mem_nIn in H1. contradiction.
  - inversion Hj; subst. specialize (H1 _ Hm'). rewrite forallb_forall in H1.
    specialize (H1 _ (nth_error_In _ _ Hi)). apply negb_true_iff, mem_nIn in H1. contradiction.
  - f_equal. eapply IH; eauto.
Qed.
Definition nonempty {A} (l : list A) : bool := match l with [] => false | _ => true end.
Definition layers_okb (ls : list layer) : bool :=
  forallb (fun l => forallb (fun bv => match snd bv with CText [] => false | _ => true end) (llayout l) && nonempty (lmods l)) ls.
Lemma layers_okb_ok ls : layers_okb ls = true -> layers_ok ls.
Proof.
  unfold layers_okb, layers_ok. rewrite forallb_forall, Forall_forall. intros H l Hl.
  specialize (H l Hl). apply andb_true_iff in H as [H1 H2]. split.
  - rewrite forallb_forall in H1. apply Forall_forall. intros bv Hb. specialize (H1 _ Hb).
    destruct (snd bv) as [[|]|]; congruence.
  - intros _ E. rewrite E in H2. discriminate.
Qed.
Definition inclb (l m : list string) : bool := forallb (fun x => mem x m) l.
Lemma inclb_ok l m : inclb l m = true -> incl l m.
Proof. unfold inclb. rewrite forallb_forall. intros H x Hx. apply mem_In, H, Hx. Qed.

Definition shipped_ok (d : generic_data) : bool :=
  let ls := shipped_layers d in
  layers_wfb ls && mods_disjointb ls && layers_okb ls && inclb (mentioned ls) kb_names.
Lemma shipped_all : forallb shipped_ok all_layouts = true.
Proof. vm_compute. reflexivity. Qed.
Lemma shipped_facts d : In d all_layouts ->
  layers_wf (shipped_layers d) /\ mods_disjoint (shipped_layers d) /\ layers_ok (shipped_layers d) /\
  incl (mentioned (shipped_layers d)) kb_names.
Proof.
  intros Hd. pose proof shipped_all as H. rewrite forallb_forall in H. specialize (H d Hd).
  unfold shipped_ok in H. rewrite !andb_true_iff in H. destruct H as (((H1 & H2) & H3) & H4).
  auto using layers_wfb_ok, mods_disjointb_ok, layers_okb_ok, inclb_ok.
Qed.
Lemma kb_names_nodup : nodupb kb_names = true.
Proof. vm_compute. reflexivity. Qed.
