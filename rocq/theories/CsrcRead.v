(** The tables of the C source, read from its declarations. *)
From Coq Require Import Ascii.
From Verif Require Import Base LayoutModel DataWinkbd DataCsrc WinkbdModel WinkbdProofs KlcModel CsrcModel CsrcSpec CsrcLex CsrcLines CsrcTrees CsrcChunks CsrcProofs OptEnergy.
Open Scope string_scope.
Open Scope list_scope.

Lemma all_some_map' {A X Y} (f : A -> option X) (g : Y -> A) (h : Y -> X) l : Forall (fun y => f (g y) = Some (h y)) l -> all_some f (map g l) = Some (map h l).
Proof. induction 1 as [|x l Hx _ IH]; [reflexivity|]. cbn [map all_some]. rewrite Hx. cbn [obind]. rewrite IH. reflexivity. Qed.

(** * Rows *)
Lemma ortoks_nonempty l : l <> [] -> ortrees l <> [].
Proof. destruct l as [|s [|s' l]]; [contradiction|discriminate|discriminate]. Qed.
Lemma ors_elem l : l <> [] -> elem_ok (ortrees l) = true.
Proof.
  intros H. assert (F : forallb (fun t => negb (is_tok "," t)) (ortrees l) = true).
  { clear H. unfold ortrees. induction l as [|s [|s' l] IH]; [reflexivity|reflexivity|]. change (ortoks (s :: s' :: l)) with (TId s :: TP "|" :: ortoks (s' :: l)). cbn [map forallb]. rewrite IH. reflexivity. }
  pose proof (ortoks_nonempty l H) as Ne. destruct (ortrees l); [contradiction|exact F].
Qed.
Lemma names_ors l : l <> [] -> names_or (ortrees l) = Some l.
Proof.
  unfold ortrees. induction l as [|s [|s' l] IH]; intros H; [contradiction|reflexivity|]. change (ortoks (s :: s' :: l)) with (TId s :: TP "|" :: ortoks (s' :: l)). cbn [map].
  change (names_or (T (TId s) :: T (TP "|") :: ?e)) with (obind (names_or e) (fun l => Some (s :: l))).
  assert (E : names_or (map T (ortoks (s' :: l))) = Some (s' :: l)) by (apply IH; discriminate).
  revert E. generalize (map T (ortoks (s' :: l))). intros e E. destruct e as [|x e]; [discriminate|]. cbn [names_or]. cbn [names_or] in E. rewrite E. reflexivity.
Qed.
Lemma vsc_reads r : snd r <> [] -> read_vsc (vsc_tree r) = Some r.
Proof.
  intros H. unfold read_vsc, vsc_tree, fields. rewrite elements_csep by (cbn [forallb]; rewrite (ors_elem _ H); reflexivity). cbn [obind number]. rewrite (names_ors _ H). destruct r. reflexivity.
Qed.
Lemma aus_reads rows : Forall (fun r => r <> [] /\ idents r) rows -> forallb elem_ok (map ortrees rows) = true /\ all_some names_or (map ortrees rows) = Some rows.
Proof.
  intros H. split.
  - rewrite forallb_map. apply forallb_true. intros r Hr. rewrite Forall_forall in H. apply ors_elem, (H r Hr).
  - apply all_some_map. eapply Forall_impl; [|exact H]. intros r [Hr _]. apply names_ors, Hr.
Qed.
Lemma vscs_reads rows : Forall (fun r : N * list string => snd r <> [] /\ idents (snd r)) rows -> forallb elem_ok (map vsc_tree rows) = true /\ all_some read_vsc (map vsc_tree rows) = Some rows.
Proof.
  intros H. split.
  - rewrite forallb_map. apply forallb_true. reflexivity.
  - apply all_some_map. eapply Forall_impl; [|exact H]. intros r [Hr _]. apply vsc_reads, Hr.
Qed.
Lemma chars_read l : fields [B (csep (map (fun e => [T (ctok e)]) l))] = Some (map (fun e => [T (ctok e)]) l) /\ all_some single (map (fun e => [T (ctok e)]) l) = Some l.
Proof.
  split.
  - unfold fields. apply elements_csep. rewrite forallb_map. apply forallb_true. intros [s|n] _; reflexivity.
  - apply all_some_map. apply Forall_forall. intros [s|n] _; reflexivity.
Qed.
Lemma row_reads w : read_wrow (row_tree w) = Some w.
Proof.
  unfold read_wrow, row_tree. unfold fields at 1. rewrite elements_csep.
  - cbn [obind]. destruct (chars_read (w_chars w)) as [C1 C2]. unfold num_tree. rewrite C1. destruct w as [v f cs]. cbn [w_vk w_flags w_chars] in *.
    destruct v; cbn [ctok single number obind]; rewrite C2; reflexivity.
  - destruct w as [[v|v] f cs]; reflexivity.
Qed.
Lemma zero_reads n : read_wrow (zero_tree n) = Some (zero_row n).
Proof.
  unfold read_wrow, zero_tree. unfold fields at 1. rewrite elements_csep by reflexivity. cbn [obind]. unfold fields. rewrite elements_cterm.
  - unfold num_tree. cbn [single number obind]. unfold zero_row.
    assert (E : all_some single (repeat [T (TNum 0)] n) = Some (repeat (CNum 0) n)) by (induction n as [|n IH]; [reflexivity|]; cbn [repeat all_some single obind]; rewrite IH; reflexivity).
    rewrite E. reflexivity.
  - apply forallb_true. intros e He. apply repeat_spec in He. subst e. reflexivity.
Qed.
Lemma mapM_len {A X} (f : A -> res X) l r : mapM f l = Ok r -> List.length r = List.length l.
Proof. intros H. apply mapM_Ok_inv in H. induction H; cbn; congruence. Qed.
(** Contents of a table of characters *)
Definition wellformed (t : tblname * list wrow) : Prop :=
  good_name (fst t) /\ (exists body, snd t = body ++ [zero_row (snd (fst t))]) /\ Forall (fun r => List.length (w_chars r) = snd (fst t)) (snd t).
Lemma table_reads t : wellformed t -> elements (cterm (table_rows t)) = Some (table_rows t) /\ all_some read_wrow (table_rows t) = Some (snd t) /\
  forallb (fun r => Nat.eqb (List.length (w_chars r)) (snd (fst t))) (snd t) = true.
Proof.
  intros (_ & (body & Hb) & Hl). split; [|split].
  - apply elements_cterm. unfold table_rows. rewrite forallb_app, forallb_map. apply andb_true_iff. split; [|reflexivity]. apply forallb_true. reflexivity.
  - unfold table_rows. rewrite Hb, removelast_last. apply all_some_app; [apply all_some_map, Forall_forall; intros w _; apply row_reads|]. cbn [all_some]. rewrite zero_reads. reflexivity.
  - apply forallb_true. intros r Hr. rewrite Forall_forall in Hl. apply Nat.eqb_eq, Hl, Hr.
Qed.
Lemma wch_wellformed cm wch tabs : vkToWchar cm = Ok (wch, tabs) -> Forall wellformed wch.
Proof.
  intros H. destruct (vkToWchar_ok cm wch tabs H) as [F _]. pose proof (char_groups_good cm) as G. pose proof (char_groups_cols cm) as C. clear H tabs. revert F G C. generalize (char_groups cm). intros gs F.
  induction F as [|g t gs wch (Hn & body & Hb & Hr) F IH]; intros G C; [constructor|]. inversion G as [|? ? G1 G2]; subst. inversion C as [|? ? C1 C2]; subst.
  constructor; [|apply IH; assumption]. unfold wellformed. rewrite Hn. split; [exact G1|]. split; [exists body; exact Hb|]. rewrite Hb. apply Forall_app. split.
  - clear - Hr C1. induction Hr as [|r w rs ws (cs & Ec & ->) _ IH]; [constructor|]. inversion C1 as [|? ? D1 D2]; subst. constructor; [|apply IH, D2]. cbn [w_chars]. apply mapM_len in Ec. rewrite Ec. exact D1.
  - constructor; [|constructor]. cbn. apply repeat_length.
Qed.
Definition columns_ok (cm : list charrow) : Prop := Forall (fun r => In (ncols r) declared_columns) cm.
Lemma wch_columns cm wch tabs : vkToWchar cm = Ok (wch, tabs) -> columns_ok cm -> Forall (fun t => In (snd (fst t)) declared_columns) wch.
Proof.
  intros H Hc. destruct (vkToWchar_ok cm wch tabs H) as [F _]. assert (G : Forall (fun g : gtable => In (snd (fst g)) declared_columns) (char_groups cm)).
  { unfold char_groups. apply Forall_app. split; [|constructor; [|constructor]; vm_compute; auto].
    apply Forall_map. destruct (groupby_spec ncols (sorted_by (fun a b => Nat.leb (ncols a) (ncols b)) cm)) as (E & D & _). apply Forall_forall. intros ng Hng. cbn [fst snd].
    rewrite Forall_forall in D. destruct (D _ Hng) as [D1 D2]. destruct (snd ng) as [|r rs] eqn:Er; [contradiction|]. inversion D2 as [|? ? D3 _]; subst. rewrite <- D3.
    unfold columns_ok in Hc. rewrite Forall_forall in Hc. apply Hc. apply (Permutation_in _ (sorted_by_perm (fun a b => Nat.leb (ncols a) (ncols b)) cm)). rewrite <- E.
    apply in_concat. exists (snd ng). split; [apply in_map, Hng|]. rewrite Er. left. reflexivity. }
  clear H Hc. revert F G. generalize (char_groups cm). intros gs F. induction F as [|g t gs wch (Hn & _) F IH]; intros G; [constructor|]. inversion G as [|? ? G1 G2]; subst. apply Forall_cons; [|apply IH, G2]. destruct t as [tn rows]. cbn [fst] in *. subst tn. exact G1.
Qed.
Lemma wch_names cm wch tabs : vkToWchar cm = Ok (wch, tabs) -> NoDup (map fst wch) /\ tabs = map Some (map fst wch) ++ [None].
Proof.
  intros H. destruct (vkToWchar_ok cm wch tabs H) as [F E]. split; [|exact E]. replace (map fst wch) with (map fst (char_groups cm)); [apply char_groups_nodup|].
  clear - F. induction F as [|g t gs wch (Hn & _) F IH]; [reflexivity|]. cbn. rewrite IH, Hn. reflexivity.
Qed.

(** * Names *)
Lemma tnames_nodup (wch : list (tblname * list wrow)) : Forall wellformed wch -> NoDup (map fst wch) -> NoDup (map (fun t => tname (fst t)) wch).
Proof.
  induction 1 as [|t l Ht Hl IH]; intros Hd; [constructor|]. cbn [map] in *. inversion Hd as [|? ? Hn Hd']; subst. constructor; [|apply IH, Hd'].
  intros Hi. apply Hn. apply in_map_iff in Hi as (t' & E & Hi). apply in_map_iff. exists t'. split; [|exact Hi]. rewrite Forall_forall in Hl. apply tname_inj; [apply (Hl t' Hi)|apply Ht|exact E].
Qed.
Section Front.
Variable sc : scmap.
Hypothesis Hsc : sc_names sc.
(** A table in front *)
Lemma front_table a b n ty arr i es x : front sc = types ++ a ++ (n, DTable ty arr i) :: b -> mem n (map fst (types ++ a)) = false ->
  type_ok types ty = true -> elements i = Some es -> table (front sc ++ x) arr ty n = Some es.
Proof.
  intros E Hn Ht Hi. rewrite E. replace ((types ++ a ++ (n, DTable ty arr i) :: b) ++ x) with ((types ++ a) ++ (n, DTable ty arr i) :: (b ++ x)) by (rewrite <- !app_assoc; reflexivity).
  apply table_ok; [apply mem_nIn, Hn|exact Ht|exact Hi].
Qed.
Lemma aus_array x : array (front sc ++ x) "unsigned short" "ausVK" = Some (map ortrees (ausVK sc)).
Proof. eapply (front_table []); [reflexivity|vm_compute; reflexivity|vm_compute; reflexivity|]. apply elements_cterm, aus_reads, aus_rows, Hsc. Qed.
Lemma e0_array x : array (front sc ++ x) "VSC_VK" "aE0VscToVk" = Some (map vsc_tree (vscToVk 0xe0 sc)).
Proof. eapply (front_table [_]); [reflexivity|vm_compute; reflexivity|vm_compute; reflexivity|]. eapply elements_cterm, vscs_reads, vsc_rows, Hsc. Qed.
Lemma e1_array x : array (front sc ++ x) "VSC_VK" "aE1VscToVk" = Some (map vsc_tree (vscToVk 0xe1 sc)).
Proof. eapply (front_table [_; _]); [reflexivity|vm_compute; reflexivity|vm_compute; reflexivity|]. eapply elements_cterm, vscs_reads, vsc_rows, Hsc. Qed.
Lemma kn_array x : exists es, array (front sc ++ x) "VSC_LPWSTR" "aKeyNames" = Some es /\ all_some read_keyname es = Some (keyNames qwertyScancodeToName).
Proof. eexists. split; [eapply (front_table [_; _; _]); [reflexivity|vm_compute; reflexivity|vm_compute; reflexivity|vm_compute; reflexivity]|vm_compute; reflexivity]. Qed.
Lemma ke_array x : exists es, array (front sc ++ x) "VSC_LPWSTR" "aKeyNamesExt" = Some es /\ all_some read_keyname es = Some (keyNamesExt qwertyScancodeToName).
Proof. eexists. split; [eapply (front_table [_; _; _; _]); [reflexivity|vm_compute; reflexivity|vm_compute; reflexivity|vm_compute; reflexivity]|vm_compute; reflexivity]. Qed.
Lemma mod_struct x : struct (front sc ++ x) "MODIFIERS" "CharModifiers" =
  Some [[p "&"; id "aVkToBits"; p "["; T (TNum 0); p "]"]; [T (TNum 24)]; [B (cterm (map (fun n => [T (TNum n)]) charModifiers))]].
Proof. eapply (front_table [_; _; _; _; _; _]); [reflexivity|vm_compute; reflexivity|vm_compute; reflexivity|vm_compute; reflexivity]. Qed.
Lemma before_front x n : In n (map fst (front sc)) -> before (front sc ++ x) n = before (front sc) n.
Proof. apply before_in. Qed.
Lemma bit_array x : exists es, array (before (front sc ++ x) "CharModifiers") "VK_TO_BIT" "aVkToBits" = Some es /\ all_some read_bit es = Some vkToBits.
Proof.
  rewrite before_in by (change (map fst (front sc)) with (removelast (removelast fixed_list)); apply mem_In; vm_compute; reflexivity).
  replace (before (front sc) "CharModifiers") with ((types ++ [("ausVK", DTable "unsigned short" true (cterm (map ortrees (ausVK sc)))); ("aE0VscToVk", DTable "VSC_VK" true (cterm (map vsc_tree (vscToVk 0xe0 sc))));
            ("aE1VscToVk", DTable "VSC_VK" true (cterm (map vsc_tree (vscToVk 0xe1 sc))))] ++ firstn 2 name_defs) ++ skipn 2 (removelast name_defs)) by reflexivity.
  eexists. split; [apply table_ok; [apply mem_nIn; vm_compute; reflexivity|vm_compute; reflexivity|vm_compute; reflexivity]|vm_compute; reflexivity].
Qed.
(** The tables of characters *)
Lemma columns_types n : In n declared_columns -> type_ok types (tyname n) = true.
Proof. unfold declared_columns. cbn [seq In]. intros H. repeat (destruct H as [<-|H]; [vm_compute; reflexivity|]). destruct H. Qed.
End Front.
Section Tables.
Variable sc : scmap.
Variable wch : list (tblname * list wrow).
Hypothesis Hsc : sc_names sc.
Hypothesis Hw : Forall wellformed wch.
Hypothesis Hd : NoDup (map fst wch).
Hypothesis Hc : Forall (fun t => In (snd (fst t)) declared_columns) wch.
Let ds := front sc ++ map wdef wch ++ tables_def wch :: root_defs.
Let ds1 := front sc ++ map wdef wch ++ [tables_def wch].
Let ds2 := front sc ++ map wdef wch.
Lemma wdef_names : map fst (map wdef wch) = map (fun t => tname (fst t)) wch.
Proof. rewrite map_map. reflexivity. Qed.
Lemma wnames_nodup : NoDup (map fst (map wdef wch)).
Proof.
  rewrite wdef_names. apply tnames_nodup; assumption.
Qed.
Lemma wname_fixed n : In n (map fst (map wdef wch)) -> ~ In n (fixed_names sc).
Proof.
  rewrite wdef_names. intros Hi. apply in_map_iff in Hi as (t & <- & Hi). apply tname_not_fixed. rewrite Forall_forall in Hw. apply (Hw t Hi).
Qed.
Lemma fixed_wname n : In n fixed_list -> ~ In n (map fst (map wdef wch)).
Proof. intros Hi H. apply (wname_fixed n H). exact Hi. Qed.
Lemma front_fixed n : In n (map fst (front sc)) -> In n (fixed_names sc).
Proof. intros H. unfold fixed_names. apply in_or_app. left. exact H. Qed.
Lemma ds_nodup : nodupb (map fst ds) = true.
Proof.
  apply nodupb_NoDup. unfold ds. rewrite !map_app. pose proof fixed_nodup as F. rewrite <- (fixed_eq sc) in F. unfold fixed_names in F.
  apply (Permutation_NoDup (l := map fst (map wdef wch) ++ (map fst (front sc) ++ ["aVkToWcharTable"; "KbdTables"]))).
  - cbn [map fst tables_def]. change (map fst root_defs) with ["KbdTables"]. rewrite !app_assoc. apply Permutation_app_tail, Permutation_app_comm.
  - apply NoDup_app'; [apply wnames_nodup|exact F|]. intros n Hn. apply wname_fixed, Hn.
Qed.
Lemma not_in_front_w n : In n ["aVkToWcharTable"; "KbdTables"] -> ~ In n (map fst ds2).
Proof.
  intros Hn Hi. unfold ds2 in Hi. rewrite map_app in Hi. apply in_app_or in Hi as [Hi|Hi].
  - revert Hi. change (map fst (front sc)) with (removelast (removelast fixed_list)). apply mem_nIn. destruct Hn as [<-|[<-|[]]]; vm_compute; reflexivity.
  - revert Hi. apply fixed_wname. apply mem_In. destruct Hn as [<-|[<-|[]]]; vm_compute; reflexivity.
Qed.
Lemma root_not_before : ~ In "KbdTables" (map fst ds1).
Proof.
  unfold ds1. rewrite app_assoc, map_app. intros Hi. apply in_app_or in Hi as [Hi|Hi]; [|cbn in Hi; destruct Hi as [Hi|[]]; discriminate].
  revert Hi. apply not_in_front_w. right. left. reflexivity.
Qed.
Definition root_fields : list (list tree) := Eval vm_compute in match root_defs with (_, DTable _ _ i) :: _ => match elements i with Some l => l | None => [] end | _ => [] end.
Lemma root_struct : struct ds "KBDTABLES" "KbdTables" = Some root_fields.
Proof.
  pose proof root_not_before as Hn. unfold ds1, front in Hn. rewrite <- !app_assoc in Hn. unfold struct, ds, front.
  match goal with |- table ?x _ _ _ = _ => replace x with ((types ++ ([("ausVK", DTable "unsigned short" true (cterm (map ortrees (ausVK sc)))); ("aE0VscToVk", DTable "VSC_VK" true (cterm (map vsc_tree (vscToVk 0xe0 sc))));
            ("aE1VscToVk", DTable "VSC_VK" true (cterm (map vsc_tree (vscToVk 0xe1 sc))))] ++ name_defs ++ map wdef wch ++ [tables_def wch])) ++ root_defs) by (rewrite <- !app_assoc; reflexivity) end.
  unfold root_defs. apply table_ok; [exact Hn|vm_compute; reflexivity|vm_compute; reflexivity].
Qed.
Lemma ds_before_root : before ds "KbdTables" = ds1.
Proof.
  unfold ds. replace (front sc ++ map wdef wch ++ tables_def wch :: root_defs) with (ds1 ++ root_defs) by (unfold ds1; rewrite <- !app_assoc; reflexivity).
  unfold root_defs. apply before_app. exact root_not_before.
Qed.
Lemma entry_reads t : In t wch -> read_entry ds2 (entry_tree (fst t)) = Some (Some t).
Proof.
  intros Ht. pose proof Hw as Hw'. rewrite Forall_forall in Hw'. specialize (Hw' t Ht). pose proof Hc as Hc'. rewrite Forall_forall in Hc'. specialize (Hc' t Ht). cbv beta in Hc'.
  destruct (table_reads t Hw') as (R1 & R2 & R3). destruct Hw' as (Hg & _).
  destruct (in_split _ _ Ht) as (w1 & w2 & E).
  assert (Hn : ~ In (tname (fst t)) (map fst (front sc ++ map wdef w1))).
  { rewrite map_app. intros Hi. apply in_app_or in Hi as [Hi|Hi].
    - apply (wname_fixed (tname (fst t))); [rewrite wdef_names; apply (in_map (fun t => tname (fst t))), Ht|apply front_fixed, Hi].
    - pose proof wnames_nodup as N. rewrite E, map_app, map_app in N. cbn [map wdef fst] in N. apply NoDup_remove_2 in N. apply N. apply in_or_app. left. exact Hi. }
  assert (D : ds2 = (front sc ++ map wdef w1) ++ wdef t :: map wdef w2) by (unfold ds2; rewrite E, map_app; cbn [map]; rewrite app_assoc; reflexivity).
  unfold read_entry, entry_tree, fields. rewrite elements_csep by reflexivity. cbn [obind p id num_tree]. rewrite String.eqb_refl. cbn [opt_if obind].
  rewrite (table_name_tname _ Hg). cbn [obind]. rewrite D at 1. unfold wdef at 2. rewrite (dget_app_out _ _ _ _ Hn). cbn [obind]. rewrite columns_tyname. cbn [obind].
  rewrite N.eqb_refl, Nat2N.id, Nat.eqb_refl. cbn [andb opt_if obind].
  assert (A : array ds2 (tyname (snd (fst t))) (tname (fst t)) = Some (table_rows t)).
  { rewrite D. unfold front in *. rewrite <- !app_assoc in *. rewrite (app_assoc types). unfold wdef at 2. rewrite <- (app_assoc types). unfold array.
    match goal with |- table (types ++ ?a ++ ?b ++ ?c ++ ?x) _ _ _ = _ => replace (types ++ a ++ b ++ c ++ x) with ((types ++ (a ++ b ++ c)) ++ x) by (rewrite <- !app_assoc; reflexivity) end.
    apply table_ok; [exact Hn|apply columns_types, Hc'|exact R1]. }
  rewrite A. cbn [obind]. rewrite R2. cbn [obind]. rewrite R3. cbn [opt_if obind]. destruct t. reflexivity.
Qed.
Lemma entries_read : all_some (read_entry ds2) (map entry_tree (map fst wch) ++ [null_tree]) = Some (map Some wch ++ [None]).
Proof.
  apply all_some_app; [|reflexivity]. rewrite map_map. apply all_some_map', Forall_forall. intros t Ht. apply entry_reads, Ht.
Qed.
Lemma tables_array : array ds1 "VK_TO_WCHAR_TABLE" "aVkToWcharTable" = Some (map entry_tree (map fst wch) ++ [null_tree]).
Proof.
  assert (Hn : ~ In "aVkToWcharTable" (map fst ds2)) by (apply not_in_front_w; left; reflexivity). unfold ds2, front in Hn. rewrite <- !app_assoc in Hn.
  unfold array, ds1, front. rewrite <- !app_assoc. unfold tables_def.
  match goal with |- table (types ++ ?a ++ ?b ++ ?c ++ ?x) _ _ _ = _ => replace (types ++ a ++ b ++ c ++ x) with ((types ++ (a ++ b ++ c)) ++ x) by (rewrite <- !app_assoc; reflexivity) end.
  apply table_ok; [exact Hn|vm_compute; reflexivity|]. apply elements_cterm. rewrite forallb_app, forallb_map. apply andb_true_iff. split; [|reflexivity]. apply forallb_true. reflexivity.
Qed.
Lemma before_tables : before ds1 "aVkToWcharTable" = ds2.
Proof.
  unfold ds1. rewrite app_assoc. unfold tables_def. apply before_app. apply not_in_front_w. left. reflexivity.
Qed.
Definition root_list : list (string * list tree) := Eval vm_compute in match all_some designated root_fields with Some l => l | None => [] end.
Lemma entry_name : entry_of (type_decls ++ var_decls sc wch ++ entry_decls) = Some "KbdTables".
Proof.
  change (entry_of (var_decls sc wch ++ entry_decls) = Some "KbdTables"). unfold var_decls. rewrite <- !app_assoc.
  change (entry_of (map table_tree wch ++ [tables_tree (map fst wch)] ++ entry_decls) = Some "KbdTables").
  generalize (map fst wch) as ts. intros ts. clear. induction wch as [|t l IH]; [reflexivity|]. exact IH.
Qed.
Lemma tables_read defs : read_tables defs (type_decls ++ var_decls sc wch ++ entry_decls) =
  Some {| d_defs := defs; d_ausVK := ausVK sc; d_E0 := vscToVk 0xe0 sc; d_E1 := vscToVk 0xe1 sc;
        d_names := keyNames qwertyScancodeToName; d_namesExt := keyNamesExt qwertyScancodeToName;
        d_bits := vkToBits; d_maxbits := maxModBits; d_modnum := charModifiers;
        d_wch := wch; d_tables := map Some (map fst wch) ++ [None] |}.
Proof.
  unfold read_tables. rewrite source_declarations. fold ds. rewrite ds_nodup, entry_name. cbn [opt_if obind]. rewrite root_struct, ds_before_root. cbn [obind].
  change (all_some designated root_fields) with (Some root_list). cbn [obind]. change (nodupb (map fst root_list)) with true. cbn [opt_if obind].
  change (dget root_list "pCharModifiers") with (Some [p "&"; id "CharModifiers"]). change (dget root_list "pusVSCtoVK") with (Some [id "ausVK"]).
  change (dget root_list "pVSCtoVK_E0") with (Some [id "aE0VscToVk"]). change (dget root_list "pVSCtoVK_E1") with (Some [id "aE1VscToVk"]).
  change (dget root_list "pKeyNames") with (Some [id "aKeyNames"]). change (dget root_list "pKeyNamesExt") with (Some [id "aKeyNamesExt"]).
  change (dget root_list "pVkToWcharTable") with (Some [id "aVkToWcharTable"]). change (dget root_list "pDeadKey") with (Some [id "NULL"]). change (dget root_list "pLigature") with (Some [id "NULL"]).
  cbn [obind address p id name_of]. unfold ds1 at 1. rewrite mod_struct. cbn [obind p id]. unfold ds1 at 1.
  destruct (bit_array sc (map wdef wch ++ [tables_def wch])) as (eb & B1 & B2). rewrite B1. cbn [obind]. rewrite B2. cbn [obind number].
  assert (M : fields [B (cterm (map (fun n => [T (TNum n)]) charModifiers))] = Some (map (fun n => [T (TNum n)]) charModifiers)) by (vm_compute; reflexivity).
  rewrite M. cbn [obind]. assert (M' : all_some number (map (fun n => [T (TNum n)]) charModifiers) = Some charModifiers) by (vm_compute; reflexivity). rewrite M'. cbn [obind].
  unfold ds1 at 1. rewrite (aus_array sc Hsc). cbn [obind]. rewrite (proj2 (aus_reads _ (aus_rows _ Hsc))). cbn [obind].
  match goal with |- context [dget root_list "bMaxVSCtoVK"] => idtac end.
  destruct (dget root_list "bMaxVSCtoVK") as [cnt|] eqn:Ecnt; [|vm_compute in Ecnt; discriminate Ecnt].
  cbn [obind]. assert (Hcnt : is_count "ausVK" cnt = true) by (vm_compute in Ecnt; injection Ecnt as <-; vm_compute; reflexivity). rewrite Hcnt. cbn [opt_if obind]. clear Ecnt Hcnt cnt.
  unfold ds1 at 1. rewrite (e0_array sc Hsc). cbn [obind]. rewrite (proj2 (vscs_reads _ (vsc_rows _ _ Hsc))). cbn [obind].
  unfold ds1 at 1. rewrite (e1_array sc Hsc). cbn [obind]. rewrite (proj2 (vscs_reads _ (vsc_rows _ _ Hsc))). cbn [obind].
  unfold ds1 at 1. destruct (kn_array sc (map wdef wch ++ [tables_def wch])) as (en & N1 & N2). rewrite N1. cbn [obind]. rewrite N2. cbn [obind].
  unfold ds1 at 1. destruct (ke_array sc (map wdef wch ++ [tables_def wch])) as (ee & X1 & X2). rewrite X1. cbn [obind]. rewrite X2. cbn [obind].
  rewrite tables_array, before_tables. cbn [obind]. rewrite entries_read. cbn [obind]. change (is_name "NULL" [T (TId "NULL")] && is_name "NULL" [T (TId "NULL")]) with true. cbn [opt_if obind].
  assert (W1 : flat_map (fun t : option (tblname * list wrow) => match t with Some x => [x] | None => [] end) (map Some wch ++ [None]) = wch).
  { clear. induction wch as [|t l IH]; [reflexivity|]. cbn. rewrite IH. reflexivity. }
  assert (W2 : map (option_map fst) (map Some wch ++ [None]) = map Some (map fst wch) ++ [None]) by (rewrite map_app, !map_map; reflexivity).
  rewrite W1, W2. reflexivity.
Qed.
End Tables.

(** * The source *)
Theorem source_read printable ord sc cm d : sc_names sc -> columns_ok cm -> makeDriverSources sc cm = Ok d ->
  exists t, sourceText printable ord sc cm = Ok t /\ read_source t = Some d.
Proof.
  unfold makeDriverSources. intros Hs Hc E. destruct (vkToWchar cm) as [[wch tabs]|] eqn:Ew; cbn [bind] in E; [|discriminate E].
  destruct (source_reads printable ord sc cm wch tabs Hs Ew) as (t & us & p & E1 & E2 & E3 & E4). exists t. split; [exact E1|].
  unfold read_source. rewrite E2, E3, E4. cbn [opt_if obind]. rewrite source_good. cbn [opt_if obind]. rewrite source_braces. cbn [obind]. rewrite source_macros, source_pieces.
  destruct (wch_names cm wch tabs Ew) as [Hd ->].
  rewrite (tables_read sc wch Hs (wch_wellformed _ _ _ Ew) Hd (wch_columns _ _ _ Ew Hc)). exact (f_equal (fun r => match r with Ok x => Some x | Raise _ => Some d end) E).
Qed.
