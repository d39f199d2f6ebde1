(** The parts of the C source and the trees the reader makes of them. *)
From Coq Require Import Ascii.
From Verif Require Import Base LayoutModel DataWinkbd DataCsrc WinkbdModel WinkbdProofs KlcModel CsrcModel CsrcSpec CsrcLex CsrcLines CsrcTrees.
Open Scope string_scope.
Open Scope list_scope.

Definition flatl (l : list tree) : list tok := flat_map flat l.
(** Complete lines that give tokens *)
Definition ttext (t : text) (ts : list tok) : Prop := ltext t (map inl ts).
Lemma lines_ok (ls : list (text * list tok)) : ls <> [] -> Forall (fun p => ttext (fst p ++ nl) (snd p)) ls ->
  ttext (join nl (map fst ls) ++ nl) (flat_map snd ls).
Proof.
  intros Hn H. unfold ttext. replace (map inl (flat_map snd ls)) with (concat (map (fun p : text * list tok => map (@inl tok (list tok)) (snd p)) ls)).
  - apply ltext_join; [destruct ls; [contradiction|discriminate]|]. clear Hn. induction H; cbn [map]; constructor; assumption.
  - clear. induction ls as [|p ls IH]; [reflexivity|]. cbn [map concat flat_map]. rewrite IH, map_app. reflexivity.
Qed.
Ltac fixed_line := cbn [fst snd]; unfold ttext; by_compute.
Lemma flat_map_map {A X Y} (f : X -> list Y) (g : A -> X) l : flat_map f (map g l) = flat_map (fun a => f (g a)) l.
Proof. induction l as [|a l IH]; [reflexivity|]. cbn. rewrite IH. reflexivity. Qed.
Lemma flat_map_flat_map {A X Y} (f : X -> list Y) (g : A -> list X) l : flat_map f (flat_map g l) = flat_map (fun a => flat_map f (g a)) l.
Proof. induction l as [|a l IH]; [reflexivity|]. cbn. rewrite flat_map_app, IH. reflexivity. Qed.

(** * Scancodes *)
Definition ortrees (l : list string) : list tree := map T (ortoks l).
Definition id (s : string) : tree := T (TId s).
Definition p (c : ascii) : tree := T (TP c).
Definition aus_trees (rows : list (list string)) : list tree :=
  [id "static"; id "unsigned"; id "short"; id "ausVK"; p "["; p "]"; p "="; B (cterm (map ortrees rows))].
Definition vsc_tree (r : N * list string) : list tree := [B (csep [[T (TNum (fst r))]; ortrees (snd r)])].
Definition vsc_trees (n : string) (rows : list (N * list string)) : list tree :=
  [id "static"; id "VSC_VK"; id n; p "["; p "]"; p "="; B (cterm (map vsc_tree rows))].
Definition sc_names (m : scmap) : Prop := Forall (fun kv => snd kv <> []) m.
Lemma aus_rows m : sc_names m -> Forall (fun r => r <> [] /\ idents r) (ausVK m).
Proof.
  intros H. unfold ausVK. apply Forall_map, Forall_forall. intros i _. split; [|apply enumOr_idents].
  destruct (dget m [N.of_nat i]) as [v|] eqn:E; [|discriminate]. apply dget_In in E. unfold sc_names in H. rewrite Forall_forall in H. specialize (H _ E). cbn in H.
  destruct v; [contradiction|discriminate].
Qed.
Lemma vsc_rows e m : sc_names m -> Forall (fun r : N * list string => snd r <> [] /\ idents (snd r)) (vscToVk e m).
Proof.
  intros H. unfold vscToVk. apply Forall_map, Forall_forall. intros kv Hk. cbn [snd]. split; [|apply enumOr_idents].
  assert (K : In kv m).
  { apply (Permutation_in _ (sorted_by_perm by_key (filter (prefixed e) m))) in Hk. apply filter_In in Hk. tauto. }
  unfold sc_names in H. rewrite Forall_forall in H. specialize (H _ K). destruct (snd kv); [contradiction|discriminate].
Qed.
Lemma flat_cterm {A} (g : A -> list tree) l : flatl (cterm (map g l)) = flat_map (fun a => flatl (g a) ++ [TP ","]) l.
Proof. unfold cterm, flatl. rewrite flat_map_map, flat_map_flat_map. apply flat_map_ext. intros a. rewrite flat_map_app. reflexivity. Qed.
Lemma combine_map_snd {A X Y} (f : X -> Y) (a : list A) l : List.length a = List.length l -> flat_map (fun ix => [f (snd ix)]) (combine a l) = map f l.
Proof. revert l. induction a as [|i a IH]; intros [|x l] H; try discriminate; [reflexivity|]. cbn in *. rewrite IH by lia. reflexivity. Qed.
Lemma flat_combine {A X Y} (f : X -> list Y) (a : list A) l : List.length a = List.length l -> flat_map (fun ix => f (snd ix)) (combine a l) = flat_map f l.
Proof. revert l. induction a as [|i a IH]; intros [|x l] H; try discriminate; [reflexivity|]. cbn in *. rewrite IH by lia. reflexivity. Qed.
Lemma combine_Forall {A X} (P : X -> Prop) (a : list A) l : Forall P l -> Forall (fun ix => P (snd ix)) (combine a l).
Proof. intros H. revert a. induction H; intros [|i a]; cbn; constructor; auto. Qed.

Definition aus_lines (rows : list (list string)) : list (text * list tok) :=
  [(lit "/* mappings from scancode to virtual key */", []); (lit "/* non-prefixed scancodes */", []);
   (lit "static unsigned short ausVK[] = {", [TId "static"; TId "unsigned"; TId "short"; TId "ausVK"; TP "["; TP "]"; TP "="; TP "{"])]
  ++ map (fun ir : nat * list string => (tab ++ lit " /* " ++ hexu 2 (N.of_nat (fst ir)) ++ lit " */ " ++ orText (snd ir) ++ lit ",", ortoks (snd ir) ++ [TP ","]))
       (combine (seq 0 (List.length rows)) rows)
  ++ [(tab ++ lit "};" ++ nl, [TP "}"; TP ";"])].
Definition vsc_lines (e : N) (n : string) (rows : list (N * list string)) : list (text * list tok) :=
  [(lit "/* scancodes prefixed by " ++ hexu 0 e ++ lit " */", []);
   (lit "static VSC_VK a" ++ hexu 0 e ++ lit "VscToVk[] = {", head_toks "VSC_VK" n)]
  ++ map (fun r : N * list string => (tab ++ lit "{ 0x" ++ hexl 0 (fst r) ++ lit ", " ++ orText (snd r) ++ lit " },", vsc_toks r)) rows
  ++ [(tab ++ lit "};" ++ nl, [TP "}"; TP ";"])].
Lemma aus_lines_text rows : map fst (aus_lines rows) = ausText rows.
Proof. unfold aus_lines, ausText. rewrite !map_app, map_map. reflexivity. Qed.
Lemma vsc_lines_text e n rows : map fst (vsc_lines e n rows) = vscText e rows.
Proof. unfold vsc_lines, vscText. rewrite !map_app, map_map. reflexivity. Qed.
Lemma aus_lines_toks rows : flat_map snd (aus_lines rows) = flatl (aus_trees rows ++ [semi]).
Proof.
  unfold aus_lines, aus_trees. rewrite !flat_map_app, flat_map_map. cbn [snd flat_map app].
  rewrite (flat_combine (fun r => ortoks r ++ [TP ","])) by (rewrite seq_length; reflexivity).
  cbn [flatl flat_map app flat id p semi]. fold (flatl (cterm (map ortrees rows))). rewrite flat_cterm.
  rewrite (flat_map_ext (fun a => flatl (ortrees a) ++ [TP ","]) (fun a => ortoks a ++ [TP ","])) by (intros a; unfold flatl, ortrees; rewrite flat_leaves; reflexivity).
  rewrite <- !app_assoc. reflexivity.
Qed.
Lemma vsc_lines_toks e n rows : flat_map snd (vsc_lines e n rows) = flatl (vsc_trees n rows ++ [semi]).
Proof.
  unfold vsc_lines, vsc_trees. rewrite !flat_map_app, flat_map_map. cbn [snd flat_map app].
  cbn [flatl flat_map app flat id p semi]. fold (flatl (cterm (map vsc_tree rows))). rewrite flat_cterm.
  rewrite (flat_map_ext (fun a => flatl (vsc_tree a) ++ [TP ","]) vsc_toks).
  2:{ intros a. unfold flatl, vsc_tree, ortrees, vsc_toks, csep. cbn [flat_map flat app comma]. rewrite flat_leaves, app_nil_r, <- app_assoc. reflexivity. }
  unfold head_toks. rewrite <- !app_assoc. reflexivity.
Qed.
Lemma aus_lines_ok rows : Forall (fun r => r <> [] /\ idents r) rows -> Forall (fun p => ttext (fst p ++ nl) (snd p)) (aus_lines rows).
Proof.
  intros H. unfold aus_lines. rewrite !Forall_app. repeat split; repeat constructor; try fixed_line.
  apply Forall_map. cbn [fst snd]. apply (combine_Forall _ (seq 0 (List.length rows))) in H. eapply Forall_impl; [|exact H]. intros [i r] [H1 H2]. cbn [fst snd] in *.
  apply aus_line; assumption.
Qed.
Lemma vsc_lines_ok e n rows : (e = 0xe0%N /\ n = "aE0VscToVk") \/ (e = 0xe1%N /\ n = "aE1VscToVk") ->
  Forall (fun r : N * list string => snd r <> [] /\ idents (snd r)) rows -> Forall (fun p => ttext (fst p ++ nl) (snd p)) (vsc_lines e n rows).
Proof.
  intros He H. unfold vsc_lines. rewrite !Forall_app. repeat split; try (destruct He as [[-> ->]|[-> ->]]; repeat constructor; fixed_line).
  apply Forall_map. cbn [fst snd]. eapply Forall_impl; [|exact H]. intros r [H1 H2]. apply vsc_line; assumption.
Qed.
Definition sc_trees (m : scmap) : list tree :=
  aus_trees (ausVK m) ++ semi :: vsc_trees "aE0VscToVk" (vscToVk 0xe0 m) ++ semi :: vsc_trees "aE1VscToVk" (vscToVk 0xe1 m) ++ [semi].
Lemma sc_text m : sc_names m -> ttext (scancodeToVkTables m ++ nl) (flatl (sc_trees m)).
Proof.
  intros H. pose (ls := aus_lines (ausVK m) ++ vsc_lines 0xe0 "aE0VscToVk" (vscToVk 0xe0 m) ++ vsc_lines 0xe1 "aE1VscToVk" (vscToVk 0xe1 m)).
  replace (scancodeToVkTables m) with (join nl (map fst ls)) by (unfold ls, scancodeToVkTables; rewrite !map_app, aus_lines_text, !vsc_lines_text; reflexivity).
  replace (flatl (sc_trees m)) with (flat_map snd ls).
  2:{ unfold ls. rewrite !flat_map_app, aus_lines_toks, !vsc_lines_toks. unfold sc_trees. unfold flatl. rewrite <- !flat_map_app. f_equal. }
  apply lines_ok; [discriminate|]. unfold ls. rewrite !Forall_app. repeat split; [apply aus_lines_ok, aus_rows, H| |]; apply vsc_lines_ok; auto using vsc_rows.
Qed.

(** * Names and modifiers *)
Definition static_trees (t : text) : list tree := match ltextb (t ++ nl) with Some o => match braces (tokens_of o) with Some l => l | None => [] end | None => [] end.
Definition name_trees : list tree := Eval vm_compute in static_trees (scancodeToName qwertyScancodeToName).
Lemma name_text : ttext (scancodeToName qwertyScancodeToName ++ nl) (flatl name_trees).
Proof. unfold ttext. by_compute. Qed.
Definition bit_trees : list tree := Eval vm_compute in static_trees vkToBitsText.
Lemma bit_text : ttext (vkToBitsText ++ nl) (flatl bit_trees).
Proof. unfold ttext. by_compute. Qed.
Definition mod_trees : list tree :=
  [id "static"; id "MODIFIERS"; id "CharModifiers"; p "="; B (csep [[p "&"; id "aVkToBits"; p "["; T (TNum 0); p "]"]; [T (TNum 24)]; [B (cterm (map (fun n => [T (TNum n)]) charModifiers))]]); semi].
Lemma mod_text ord : ttext (charModifiersText ord ++ nl) (flatl mod_trees).
Proof.
  pose (ls := [(lit "/* maps a shift bitfield value (array index) to a layer number in" ++ nl ++ lit "virtual key translation (VK_TO_WCHARS, array value) */", []);
            (lit "static MODIFIERS CharModifiers = {", [TId "static"; TId "MODIFIERS"; TId "CharModifiers"; TP "="; TP "{"]);
            (tab ++ lit "&aVkToBits[0],", [TP "&"; TId "aVkToBits"; TP "["; TNum 0; TP "]"; TP ","]); (tab ++ lit "24,", [TNum 24; TP ","]); (tab ++ lit "{", [TP "{"])]
    ++ map (fun i => (modText ord (N.of_nat i), [TNum (modNumber (N.of_nat i)); TP ","])) (seq 0 25)
    ++ [(tab ++ lit "}};" ++ nl, [TP "}"; TP "}"; TP ";"])]).
  replace (charModifiersText ord) with (join nl (map fst ls)).
  2:{ unfold charModifiersText, ls. rewrite !map_app, map_map. cbn [map fst app]. cbn [join]. rewrite <- !app_assoc. reflexivity. }
  replace (flatl mod_trees) with (flat_map snd ls) by (unfold ls; rewrite !flat_map_app, flat_map_map; vm_compute; reflexivity).
  apply lines_ok; [discriminate|]. unfold ls. rewrite !Forall_app. repeat split; try (repeat constructor; fixed_line).
  apply Forall_map, Forall_forall. intros i _. apply mod_line.
Qed.

(** * Tables of characters *)
Definition num_tree (n : N) : list tree := [T (TNum n)].
Definition row_tree (w : wrow) : list tree :=
  [B (csep [[T (ctok (w_vk w))]; num_tree (w_flags w); [B (csep (map (fun e => [T (ctok e)]) (w_chars w)))]])].
Definition zero_tree (n : nat) : list tree := [B (csep [num_tree 0; num_tree 0; [B (cterm (repeat (num_tree 0) n))]])].
Definition table_rows (t : tblname * list wrow) : list (list tree) := map row_tree (removelast (snd t)) ++ [zero_tree (snd (fst t))].
Definition table_tree (t : tblname * list wrow) : list tree :=
  [id "static"; id (tyname (snd (fst t))); id (tname (fst t)); p "["; p "]"; p "="; B (cterm (table_rows t))].
Lemma flat_csep l : flatl (csep (map (fun e => [T (ctok e)]) l)) = ctoks l.
Proof.
  induction l as [|e [|e' l] IH]; [reflexivity|reflexivity|]. change (ctoks (e :: e' :: l)) with (ctok e :: TP "," :: ctoks (e' :: l)). rewrite <- IH. reflexivity.
Qed.
Lemma flat_row w : flatl (row_tree w) ++ [TP ","] = wrow_toks w.
Proof.
  unfold row_tree, wrow_toks, flatl. cbn [flat_map flat app csep comma num_tree]. fold (flatl (csep (map (fun e => [T (ctok e)]) (w_chars w)))). rewrite flat_csep.
  rewrite <- ?app_assoc. cbn [app]. rewrite <- ?app_assoc. reflexivity.
Qed.
Lemma flat_zero n : flatl (zero_tree n) ++ [TP ","] = zero_toks n.
Proof.
  assert (E : flat_map flat (cterm (repeat [T (TNum 0)] n)) = concat (repeat [TNum 0; TP ","] n)) .
  { induction n as [|n IH]; [reflexivity|]. cbn [repeat concat]. rewrite <- IH. reflexivity. }
  unfold zero_tree, zero_toks, flatl, num_tree. cbn [flat_map flat app csep comma].
  rewrite E. rewrite <- ?app_assoc. cbn [app]. rewrite <- ?app_assoc. reflexivity.
Qed.
Lemma table_text printable g t : good_name (fst g) -> table_of g t -> exists ls, tableText printable (fst g) (snd g) = Ok (map fst ls) /\
  Forall (fun p => ttext (fst p ++ nl) (snd p)) ls /\ flat_map snd ls = flatl (table_tree t ++ [semi]).
Proof.
  intros Hg (Ht & body & Hr & Hb). destruct g as [tn g]. destruct t as [tn' rows]. cbn [fst snd] in *. subst tn' rows.
  assert (R : exists ts, mapM (rowText printable) g = Ok ts /\ Forall2 (fun t w => ttext (t ++ nl) (wrow_toks w)) ts body).
  { clear Hg. induction Hb as [|r w g body Hw Hb IH]; [exists []; split; [reflexivity|constructor]|]. destruct IH as (ts & E & F). destruct Hw as (chars & Ec & ->).
    destruct r as [[v fl] cs]. cbn [snd fst rvk] in *. destruct (wrow_line printable v fl cs chars Ec) as (t & Et & Hl). exists (t :: ts). cbn [mapM]. rewrite Et. cbn [bind]. rewrite E.
    split; [reflexivity|]. constructor; assumption. }
  destruct R as (ts & Ets & Hts).
  exists ([(lit "/* map virtual key to flags and " ++ dec (N.of_nat (snd tn)) ++ lit " unicode output characters */", []);
           (lit "static VK_TO_WCHARS" ++ dec (N.of_nat (snd tn)) ++ lit " " ++ defname tn ++ lit "[] = {", head_toks (tyname (snd tn)) (tname tn))]
          ++ combine ts (map wrow_toks body)
          ++ [(tab ++ lit "{0, 0, {" ++ concat (repeat (lit "0, ") (snd tn)) ++ lit "}},", zero_toks (snd tn)); (tab ++ lit "};", [TP "}"; TP ";"]); ([], [])]).
  split; [|split].
  - unfold tableText. cbv zeta. rewrite Ets. cbn [bind]. rewrite !map_app.
    replace (map fst (combine ts (map wrow_toks body))) with ts; [reflexivity|]. clear - Hts. induction Hts as [|a w ts body _ _ IH]; [reflexivity|]. cbn. f_equal. exact IH.
  - rewrite !Forall_app. repeat split.
    + constructor; [|constructor; [|constructor]]; cbn [fst snd]; [apply table_comment|apply table_head, good_chars, Hg].
    + clear - Hts. induction Hts; cbn; constructor; auto.
    + constructor; [|constructor; [|constructor; [|constructor]]]; cbn [fst snd]; [apply zero_line|fixed_line|fixed_line].
  - rewrite !flat_map_app. cbn [flat_map snd app].
    assert (E : flat_map snd (combine ts (map wrow_toks body)) = flat_map wrow_toks body).
    { clear - Hts. induction Hts as [|a w ts body _ _ IH]; [reflexivity|]. cbn [map combine flat_map snd]. f_equal. exact IH. }
    rewrite E. unfold table_tree, table_rows. cbn [fst snd]. rewrite removelast_last. unfold cterm. rewrite flat_map_app, flat_map_map. cbn [flatl flat_map flat app id p semi].
    rewrite flat_map_app, flat_map_flat_map. fold flatl.
    rewrite (flat_map_ext (fun a => flat_map flat (row_tree a ++ [comma])) wrow_toks) by (intros a; rewrite <- flat_row, flat_map_app; reflexivity).
    rewrite (app_nil_r (zero_tree _ ++ _)), (flat_map_app flat (zero_tree _)). change (flat_map flat [comma]) with [TP ","]. fold (flatl (zero_tree (snd tn))). rewrite flat_zero.
    unfold head_toks. rewrite <- ?app_assoc. cbn [app]. rewrite <- ?app_assoc. reflexivity.
Qed.
Definition entry_tree (t : tblname) : list tree :=
  [B (csep [[p "("; id "PVK_TO_WCHARS1"; p ")"; id (tname t)]; num_tree (N.of_nat (snd t)); [id "sizeof"; T TCall; id (tname t); p "["; T (TNum 0); p "]"; p ")"]])].
Definition null_tree : list tree := [B (csep [[id "NULL"]; num_tree 0; num_tree 0])].
Definition tables_tree (ts : list tblname) : list tree :=
  [id "static"; id "VK_TO_WCHAR_TABLE"; id "aVkToWcharTable"; p "["; p "]"; p "="; B (cterm (map entry_tree ts ++ [null_tree]))].
Definition wch_trees (wch : list (tblname * list wrow)) : list tree :=
  flat_map (fun t => table_tree t ++ [semi]) wch ++ tables_tree (map fst wch) ++ [semi].
Lemma char_groups_good m : Forall (fun g : gtable => good_name (fst g)) (char_groups m).
Proof.
  unfold char_groups. rewrite Forall_app. split; [apply Forall_map, Forall_forall; intros x _; left; reflexivity|]. constructor; [right; reflexivity|constructor].
Qed.
Lemma wch_text printable m wch tabs : vkToWchar m = Ok (wch, tabs) -> exists t, vkToWcharText printable m = Ok t /\ ttext (t ++ nl) (flatl (wch_trees wch)).
Proof.
  intros H. destruct (vkToWchar_ok m wch tabs H) as [F _]. pose proof (char_groups_good m) as G. 
  assert (U : vkToWcharText printable m = (do ts <- mapM (fun tg : gtable => tableText printable (fst tg) (snd tg)) (char_groups m);
    Ok (join nl (concat ts
    ++ [lit "/* table of virtual key to wchar mapping tables */"; lit "static VK_TO_WCHAR_TABLE aVkToWcharTable[] = {"]
    ++ map (fun tg : gtable => entryText (fst tg)) (char_groups m)
    ++ [tab ++ lit "{NULL, 0, 0},"; tab ++ lit "};"])))) by reflexivity.
  rewrite U. clear U. revert F G. generalize (char_groups m). intros gs F G.
  assert (R : exists lss, mapM (fun tg : gtable => tableText printable (fst tg) (snd tg)) gs = Ok (map (map fst) lss) /\
    Forall (Forall (fun p : text * list tok => ttext (fst p ++ nl) (snd p))) lss /\ flat_map (flat_map snd) lss = flat_map (fun t => flatl (table_tree t ++ [semi])) wch).
  { clear H. induction F as [|g t gs wch Hgt F IH]; [exists []; repeat constructor|]. inversion G as [|? ? G1 G2]; subst. destruct (IH G2) as (lss & E1 & E2 & E3).
    destruct (table_text printable g t G1 Hgt) as (ls & L1 & L2 & L3). exists (ls :: lss). cbn [mapM]. rewrite L1. cbn [bind]. rewrite E1. repeat split; [constructor; assumption|].
    cbn [flat_map]. rewrite L3, E3. reflexivity. }
  destruct R as (lss & E1 & E2 & E3). rewrite E1. cbn [bind]. eexists. split; [reflexivity|].
  pose (ls := concat lss ++ [(lit "/* table of virtual key to wchar mapping tables */", []); (lit "static VK_TO_WCHAR_TABLE aVkToWcharTable[] = {", head_toks "VK_TO_WCHAR_TABLE" "aVkToWcharTable")]
    ++ map (fun tg : gtable => (entryText (fst tg), entry_toks (fst tg))) gs
    ++ [(tab ++ lit "{NULL, 0, 0},", [TP "{"; TId "NULL"; TP ","; TNum 0; TP ","; TNum 0; TP "}"; TP ","]); (tab ++ lit "};", [TP "}"; TP ";"])]).
  match goal with |- ttext (join nl ?l ++ nl) _ => replace l with (map fst ls) by (unfold ls; rewrite !map_app, concat_map, map_map; reflexivity) end.
  replace (flatl (wch_trees wch)) with (flat_map snd ls).
  - apply lines_ok.
    + unfold ls. intros E. apply app_eq_nil in E as [_ E]. discriminate.
    + unfold ls. rewrite !Forall_app. repeat split; try (repeat constructor; fixed_line).
      * clear - E2. induction E2; cbn; [constructor|apply Forall_app; split; assumption].
      * apply Forall_map. eapply Forall_impl; [|exact G]. intros g Hg. cbn [fst snd]. apply entry_line, good_chars, Hg.
  - unfold ls, wch_trees. rewrite !flat_map_app. unfold flatl in *. rewrite flat_map_app, flat_map_flat_map, flat_map_app.
    replace (flat_map snd (concat lss)) with (flat_map (flat_map snd) lss) by (clear; induction lss; [reflexivity|]; cbn; rewrite flat_map_app; congruence).
    rewrite E3. f_equal. unfold tables_tree. cbn [flat_map flat app id p semi snd head_toks]. unfold cterm. rewrite flat_map_app, flat_map_app, !flat_map_map, flat_map_flat_map.
    assert (M : flat_map (fun a : gtable => entry_toks (fst a)) gs = flat_map (fun a => flat_map flat (entry_tree (fst a) ++ [comma])) wch).
    { clear - F. induction F as [|g t gs wch Hgt F IH]; [reflexivity|]. cbn [flat_map]. rewrite IH. destruct Hgt as [-> _]. reflexivity. }
    cbn [snd]. rewrite M. rewrite <- ?app_assoc. reflexivity.
Qed.
