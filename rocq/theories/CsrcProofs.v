(** Reading the C source gives the tables of the driver. *)
From Coq Require Import Ascii.
From Verif Require Import Base LayoutModel DataWinkbd DataCsrc WinkbdModel WinkbdProofs KlcModel CsrcModel CsrcSpec CsrcLex CsrcLines CsrcTrees CsrcChunks.
Open Scope string_scope.
Open Scope list_scope.

(** * Tokens of trees *)
Definition leaf_ok (t : tok) : bool := negb (brace t) && match t with TBad => false | _ => true end.
Fixpoint good (t : tree) : bool := match t with T t => leaf_ok t | B l => forallb good l end.
Lemma good_plain t : good t = true -> plain t = true.
Proof.
  induction t as [t|l IH] using tree_ind'; cbn [good plain]; [unfold leaf_ok; rewrite andb_true_iff; tauto|].
  induction IH as [|x l Hx _ IH]; [reflexivity|]. cbn [forallb]. rewrite !andb_true_iff. intros [A C]. auto.
Qed.
Lemma good_plains l : forallb good l = true -> forallb plain l = true.
Proof. rewrite !forallb_forall. intros H x Hx. apply good_plain, H, Hx. Qed.
Lemma good_directive t : good t = true -> forallb directive_ok (map inl (flat t)) = true.
Proof.
  induction t as [t|l IH] using tree_ind'; intros H; cbn [good flat map forallb] in *.
  - destruct t; try reflexivity; discriminate.
  - rewrite map_app, forallb_app. cbn. rewrite andb_true_r. induction IH as [|x l Hx _ IH]; [reflexivity|]. cbn [forallb flat_map] in *. apply andb_true_iff in H as [H1 H2].
    rewrite map_app, forallb_app, Hx, IH by assumption. reflexivity.
Qed.
Lemma good_directives l : forallb good l = true -> forallb directive_ok (map inl (flatl l)) = true.
Proof.
  induction l as [|x l IH]; intros H; [reflexivity|]. unfold flatl in *. cbn [forallb flat_map] in *. apply andb_true_iff in H as [H1 H2].
  rewrite map_app, forallb_app, (good_directive x H1), IH by exact H2. reflexivity.
Qed.
Lemma good_cterm es : forallb (forallb good) es = true -> forallb good (cterm es) = true.
Proof.
  unfold cterm. induction es as [|e es IH]; intros H; [reflexivity|]. cbn [forallb flat_map] in *. apply andb_true_iff in H as [H1 H2].
  rewrite !forallb_app, H1, IH by exact H2. reflexivity.
Qed.
Lemma good_csep es : forallb (forallb good) es = true -> forallb good (csep es) = true.
Proof.
  induction es as [|e [|e' es] IH]; intros H; [reflexivity|cbn in *; rewrite andb_true_r in H; exact H|].
  change (csep (e :: e' :: es)) with (e ++ comma :: csep (e' :: es)). cbn [forallb] in H. apply andb_true_iff in H as [H1 H2].
  rewrite forallb_app, H1. cbn [forallb]. change (good comma) with true. rewrite IH by exact H2. reflexivity.
Qed.
Lemma ors_good l : forallb good (ortrees l) = true.
Proof. unfold ortrees. induction l as [|s [|s' l] IH]; [reflexivity|reflexivity|]. change (ortoks (s :: s' :: l)) with (TId s :: TP "|" :: ortoks (s' :: l)). cbn [map forallb]. rewrite IH. reflexivity. Qed.
Lemma ctok_good e : good (T (ctok e)) = true.
Proof. destruct e; reflexivity. Qed.
Lemma forallb_map {A X} (f : X -> bool) (g : A -> X) l : forallb f (map g l) = forallb (fun a => f (g a)) l.
Proof. induction l as [|a l IH]; [reflexivity|]. cbn. rewrite IH. reflexivity. Qed.
Lemma forallb_true {A} (f : A -> bool) l : (forall a, In a l -> f a = true) -> forallb f l = true.
Proof. intros H. apply forallb_forall, H. Qed.
Lemma aus_good rows : forallb good (aus_trees rows) = true.
Proof.
  unfold aus_trees. cbn [forallb].
  assert (E : good (B (cterm (map ortrees rows))) = true).
  { cbn [good]. apply good_cterm. rewrite forallb_map. apply forallb_true. intros a _. apply ors_good. }
  rewrite E. reflexivity.
Qed.
Lemma vsc_good n rows : forallb good (vsc_trees n rows) = true.
Proof.
  assert (E : good (B (cterm (map vsc_tree rows))) = true).
  { cbn [good]. apply good_cterm. rewrite forallb_map. apply forallb_true. intros r _. unfold vsc_tree. cbn [forallb]. rewrite andb_true_r. cbn [good].
    apply good_csep. cbn [forallb]. rewrite ors_good. reflexivity. }
  unfold vsc_trees. cbn [forallb]. rewrite E. reflexivity.
Qed.
Lemma row_good w : forallb good (row_tree w) = true.
Proof.
  unfold row_tree. cbn [forallb]. rewrite andb_true_r. cbn [good]. apply good_csep. cbn [forallb]. rewrite ctok_good.
  assert (E : good (B (csep (map (fun e => [T (ctok e)]) (w_chars w)))) = true).
  { cbn [good]. apply good_csep. rewrite forallb_map. apply forallb_true. intros e _. cbn [forallb]. rewrite ctok_good. reflexivity. }
  rewrite E. reflexivity.
Qed.
Lemma zero_good n : forallb good (zero_tree n) = true.
Proof.
  unfold zero_tree. cbn [forallb]. rewrite andb_true_r. cbn [good]. apply good_csep. cbn [forallb].
  assert (E : good (B (cterm (repeat (num_tree 0) n))) = true).
  { cbn [good]. apply good_cterm. apply forallb_true. intros e He. apply repeat_spec in He. subst e. reflexivity. }
  rewrite E. reflexivity.
Qed.
Lemma table_good t : forallb good (table_tree t) = true.
Proof.
  assert (E : good (B (cterm (table_rows t))) = true).
  { cbn [good]. apply good_cterm. unfold table_rows. rewrite forallb_app, forallb_map. cbn [forallb]. rewrite zero_good. rewrite andb_true_r.
    apply forallb_true. intros w _. apply row_good. }
  unfold table_tree. cbn [forallb]. rewrite E. reflexivity.
Qed.
Lemma tables_good ts : forallb good (tables_tree ts) = true.
Proof.
  assert (E : good (B (cterm (map entry_tree ts ++ [null_tree]))) = true).
  { cbn [good]. apply good_cterm. rewrite forallb_app, forallb_map. rewrite andb_true_iff. split; [|reflexivity]. apply forallb_true. intros t _. reflexivity. }
  unfold tables_tree. cbn [forallb]. rewrite E. reflexivity.
Qed.

(** * The whole text *)
Definition type_out : outs := Eval vm_compute in match ltextb (typedefs ++ nl) with Some o => o | None => [] end.
Lemma type_text : ltext (typedefs ++ nl) type_out.
Proof. by_compute. Qed.
Definition type_trees : list tree := Eval vm_compute in match braces (tokens_of type_out) with Some l => removelast l | None => [] end.
Lemma type_toks : tokens_of type_out = flatl (type_trees ++ [semi]).
Proof. vm_compute. reflexivity. Qed.
Definition entry_out : outs := Eval vm_compute in fst (cpp PBegin (fst (lex S0 (lit entrypoint)))).
Definition entry_trees : list tree := Eval vm_compute in match braces (tokens_of entry_out) with Some l => l | None => [] end.
Lemma entry_toks_ok : tokens_of entry_out = flatl entry_trees.
Proof. vm_compute. reflexivity. Qed.
Lemma entry_text : exists us p, lex S0 (lit entrypoint) = (us, S0) /\ cpp PBegin us = (entry_out, p) /\ match p with PDir _ => false | _ => true end = true.
Proof. eexists. eexists. split; [vm_compute; reflexivity|]. split; vm_compute; reflexivity. Qed.

Definition var_trees (sc : scmap) (wch : list (tblname * list wrow)) : list tree :=
  sc_trees sc ++ name_trees ++ bit_trees ++ mod_trees ++ wch_trees wch.
Definition source_defs : list (string * N) := enumToCDefine KVk vkval ++ enumToCDefine KFl vkflags ++ enumToCDefine KWc wchars.
Definition source_out (sc : scmap) (wch : list (tblname * list wrow)) : outs :=
  type_out ++ map define_of source_defs ++ map inl (flatl (var_trees sc wch)) ++ entry_out.
Definition source_trees (sc : scmap) (wch : list (tblname * list wrow)) : list tree :=
  type_trees ++ semi :: var_trees sc wch ++ entry_trees.
Lemma enum_idents mk cls : Forall (fun nv => namedb (lit (fst nv)) = true) (enumToCDefine mk cls).
Proof. unfold enumToCDefine. apply Forall_map, Forall_forall. intros nv _. apply cdefName_ident. Qed.
Lemma source_reads printable ord sc cm wch tabs : sc_names sc -> vkToWchar cm = Ok (wch, tabs) ->
  exists t us p, sourceText printable ord sc cm = Ok t /\ lex S0 t = (us, S0) /\ cpp PBegin us = (source_out sc wch, p) /\
    match p with PDir _ => false | _ => true end = true.
Proof.
  intros Hsc Hw. destruct (wch_text printable cm wch tabs Hw) as (tw & Ew & Tw). destruct entry_text as (ue & pe & E1 & E2 & E3).
  pose (t0 := concat (map (fun x => x ++ nl) [typedefs; defines "VirtualKey" (enumToCDefine KVk vkval); defines "VirtualKeyFlag" (enumToCDefine KFl vkflags);
               defines "WChar" (enumToCDefine KWc wchars); scancodeToVkTables sc; scancodeToName qwertyScancodeToName;
               vkToBitsText; charModifiersText ord; tw])).
  pose (o0 := type_out ++ map define_of source_defs ++ map inl (flatl (var_trees sc wch))).
  assert (L : ltext t0 o0).
  { replace o0 with (concat [type_out; map define_of (enumToCDefine KVk vkval); map define_of (enumToCDefine KFl vkflags); map define_of (enumToCDefine KWc wchars);
        map inl (flatl (sc_trees sc)); map inl (flatl name_trees); map inl (flatl bit_trees); map inl (flatl mod_trees); map inl (flatl (wch_trees wch))]).
    - unfold t0. cbn [map]. apply ltext_concat. repeat apply Forall2_cons; try apply Forall2_nil;
        [apply type_text|apply defines_text; [reflexivity|apply enum_idents]|apply defines_text; [reflexivity|apply enum_idents]|apply defines_text; [reflexivity|apply enum_idents]
        |apply sc_text, Hsc|apply name_text|apply bit_text|apply mod_text|exact Tw].
    - unfold o0, source_defs, var_trees, flatl. cbn [concat]. rewrite !map_app, !flat_map_app, !map_app, app_nil_r, <- !app_assoc. reflexivity. }
  destruct L as (u0 & L1 & L2). exists (t0 ++ lit entrypoint), (u0 ++ ue), pe. split; [|split; [|split; [|exact E3]]].
  - unfold sourceText. rewrite Ew. cbn [bind]. f_equal. unfold t0. generalize (lit entrypoint). intros e. generalize typedefs (scancodeToVkTables sc) (charModifiersText ord).
    generalize (defines "VirtualKey" (enumToCDefine KVk vkval)) (defines "VirtualKeyFlag" (enumToCDefine KFl vkflags)) (defines "WChar" (enumToCDefine KWc wchars)).
    generalize (scancodeToName qwertyScancodeToName) vkToBitsText. intros. cbn [join map concat]. rewrite app_nil_r, <- !app_assoc. reflexivity.
  - rewrite lex_app, L1. cbn [fst snd]. rewrite E1. reflexivity.
  - rewrite cpp_app, L2. cbn [fst snd]. rewrite E2. cbn [fst snd]. unfold o0, source_out. rewrite <- !app_assoc. reflexivity.
Qed.
Lemma var_good sc wch : forallb good (var_trees sc wch) = true.
Proof.
  unfold var_trees, sc_trees, wch_trees. repeat (rewrite forallb_app || cbn [forallb]). change (good semi) with true.
  rewrite aus_good, !vsc_good, tables_good. rewrite !andb_true_r. cbn [andb].
  assert (E : forallb good (flat_map (fun t => table_tree t ++ [semi]) wch) = true).
  { induction wch as [|t wch IH]; [reflexivity|]. cbn [flat_map]. rewrite !forallb_app, table_good, IH. reflexivity. }
  rewrite E. vm_compute. reflexivity.
Qed.
Lemma source_good sc wch : forallb directive_ok (source_out sc wch) = true.
Proof.
  unfold source_out. rewrite !forallb_app, (good_directives _ (var_good sc wch)). rewrite !andb_true_iff. repeat split; vm_compute; reflexivity.
Qed.
Lemma tokens_app a b : tokens_of (a ++ b) = tokens_of a ++ tokens_of b.
Proof. apply flat_map_app. Qed.
Lemma tokens_inl ts : tokens_of (map inl ts) = ts.
Proof. unfold tokens_of. rewrite flat_map_map. induction ts as [|t ts IH]; [reflexivity|]. cbn. f_equal. exact IH. Qed.
Lemma tokens_defs l : tokens_of (map define_of l) = [].
Proof. induction l as [|t ts IH]; [reflexivity|]. exact IH. Qed.
Lemma source_braces sc wch : braces (tokens_of (source_out sc wch)) = Some (source_trees sc wch).
Proof.
  replace (tokens_of (source_out sc wch)) with (flatl (source_trees sc wch)).
  - apply braces_flat, good_plains. unfold source_trees. rewrite forallb_app. cbn [forallb]. rewrite forallb_app, var_good. vm_compute. reflexivity.
  - unfold source_out, source_trees. rewrite !tokens_app, type_toks, tokens_defs, tokens_inl, entry_toks_ok. rewrite app_nil_l. unfold flatl. rewrite <- !flat_map_app. rewrite <- app_assoc. reflexivity.
Qed.
Definition not_static (x : tok + list tok) : bool := match x with inl (TId s) => negb (String.eqb s "static") | _ => true end.
Definition macros_in (o : outs) : list (string * N) := flat_map (fun x => match x with inl _ => [] | inr l => macro_of l end) o.
Lemma static_dec (s : string) (o : outs) : s <> "static" -> macros_before (inl (TId s) :: o) = macros_before o.
Proof.
  intros H. cbn [macros_before].
  repeat (match goal with |- context [match ?x with _ => _ end] => is_var x; destruct x; try reflexivity end).
  contradiction H. reflexivity.
Qed.
Lemma macros_app a b : forallb not_static a = true -> macros_before (a ++ b) = macros_in a ++ macros_before b.
Proof.
  induction a as [|x a IH]; intros H; [reflexivity|]. cbn [forallb app] in *. apply andb_true_iff in H as [H1 H2].
  destruct x as [t|l]; [|cbn [macros_before macros_in flat_map]; rewrite <- app_assoc; f_equal; apply IH, H2].
  cbn [macros_in flat_map app]. fold (macros_in a). rewrite <- (IH H2). destruct t as [s| | | | | |]; try reflexivity.
  apply static_dec. cbn in H1. intros ->. discriminate.
Qed.
Lemma source_macros sc wch : macros_before (source_out sc wch) = source_defs.
Proof.
  unfold source_out. rewrite macros_app by (vm_compute; reflexivity). change (macros_in type_out) with (@nil (string * N)). cbn [app].
  rewrite macros_app by (rewrite forallb_map; apply forallb_true; reflexivity).
  assert (E : macros_in (map define_of source_defs) = source_defs).
  { generalize source_defs. induction l as [|[n v] l IH]; [reflexivity|]. cbn [map]. unfold macros_in in *. cbn [flat_map define_of macro_of fst snd app]. rewrite IH. reflexivity. }
  rewrite E. unfold var_trees, sc_trees, aus_trees. rewrite <- (app_nil_r source_defs) at 2. f_equal.
Qed.

(** * Declarations *)
Definition type_decls : list (list tree) := Eval vm_compute in pieces ";" type_trees.
Definition name_decls : list (list tree) := Eval vm_compute in pieces ";" (removelast name_trees).
Definition bit_decls : list (list tree) := Eval vm_compute in pieces ";" (removelast bit_trees).
Definition mod_decls : list (list tree) := Eval vm_compute in pieces ";" (removelast mod_trees).
Definition entry_decls : list (list tree) := Eval vm_compute in pieces ";" entry_trees.
Definition var_decls (sc : scmap) (wch : list (tblname * list wrow)) : list (list tree) :=
  [aus_trees (ausVK sc); vsc_trees "aE0VscToVk" (vscToVk 0xe0 sc); vsc_trees "aE1VscToVk" (vscToVk 0xe1 sc)] ++ name_decls ++ bit_decls ++ mod_decls
  ++ map table_tree wch ++ [tables_tree (map fst wch)].
Lemma pieces_semi a b : pieces ";" (a ++ semi :: b) = pieces ";" a ++ pieces ";" b.
Proof. apply pieces_sep. reflexivity. Qed.
Lemma pieces_fixed a ps b : forallb (fun _ => true) a = true -> pieces ";" (removelast a) = ps -> a = removelast a ++ [semi] -> pieces ";" (a ++ b) = ps ++ pieces ";" b.
Proof. intros _ H E. rewrite E, <- app_assoc. cbn [app]. rewrite pieces_semi, H. reflexivity. Qed.
Lemma pieces_tables wch b : pieces ";" (flat_map (fun t => table_tree t ++ [semi]) wch ++ b) = map table_tree wch ++ pieces ";" b.
Proof.
  induction wch as [|t wch IH]; [reflexivity|]. cbn [flat_map map]. rewrite <- !app_assoc. cbn [app]. rewrite <- IH.
  change (pieces ";" (table_tree t ++ semi :: (flat_map (fun t => table_tree t ++ [semi]) wch ++ b)) = table_tree t :: pieces ";" (flat_map (fun t => table_tree t ++ [semi]) wch ++ b)).
  rewrite pieces_semi. reflexivity.
Qed.
Lemma source_pieces sc wch : pieces ";" (source_trees sc wch) = type_decls ++ var_decls sc wch ++ entry_decls.
Proof.
  unfold source_trees. rewrite pieces_semi. change (pieces ";" type_trees) with type_decls. f_equal.
  replace (var_trees sc wch ++ entry_trees) with
    (aus_trees (ausVK sc) ++ semi :: (vsc_trees "aE0VscToVk" (vscToVk 224 sc) ++ semi :: (vsc_trees "aE1VscToVk" (vscToVk 225 sc) ++ semi ::
      (name_trees ++ bit_trees ++ mod_trees ++ flat_map (fun t => table_tree t ++ [semi]) wch ++ (tables_tree (map fst wch) ++ semi :: entry_trees))))).
  2:{ unfold var_trees, sc_trees, wch_trees. repeat (rewrite <- app_assoc; cbn [app]). reflexivity. }
  rewrite pieces_semi, pieces_semi, pieces_semi.
  rewrite (pieces_fixed name_trees name_decls) by (vm_compute; reflexivity).
  rewrite (pieces_fixed bit_trees bit_decls) by (vm_compute; reflexivity).
  rewrite (pieces_fixed mod_trees mod_decls) by (vm_compute; reflexivity).
  rewrite pieces_tables, pieces_semi. unfold var_decls. repeat (rewrite <- app_assoc; cbn [app]). reflexivity.
Qed.
(** Declarations before the tables of characters *)
Definition types : defs := Eval vm_compute in declarations type_decls.
Definition name_defs : defs := Eval vm_compute in declarations (name_decls ++ bit_decls ++ mod_decls).
Definition root_defs : defs := Eval vm_compute in declarations entry_decls.
Definition front (sc : scmap) : defs :=
  types ++ [("ausVK", DTable "unsigned short" true (cterm (map ortrees (ausVK sc)))); ("aE0VscToVk", DTable "VSC_VK" true (cterm (map vsc_tree (vscToVk 0xe0 sc))));
            ("aE1VscToVk", DTable "VSC_VK" true (cterm (map vsc_tree (vscToVk 0xe1 sc))))] ++ name_defs.
Definition wdef (t : tblname * list wrow) : string * def := (tname (fst t), DTable (tyname (snd (fst t))) true (cterm (table_rows t))).
Definition tables_def (wch : list (tblname * list wrow)) : string * def := ("aVkToWcharTable", DTable "VK_TO_WCHAR_TABLE" true (cterm (map entry_tree (map fst wch) ++ [null_tree]))).
Lemma decl_table t : declaration (table_tree t) = [wdef t].
Proof. reflexivity. Qed.
Lemma source_declarations sc wch : declarations (type_decls ++ var_decls sc wch ++ entry_decls) = front sc ++ map wdef wch ++ tables_def wch :: root_defs.
Proof.
  unfold declarations. rewrite flat_map_app. change (flat_map declaration type_decls) with types. unfold var_decls. rewrite !flat_map_app, flat_map_map.
  rewrite (flat_map_ext (fun t => declaration (table_tree t)) (fun t => [wdef t])) by apply decl_table.
  replace (flat_map (fun t => [wdef t]) wch) with (map wdef wch) by (clear; induction wch as [|t l IH]; [reflexivity|]; cbn; rewrite <- IH; reflexivity).
  unfold front. rewrite <- !app_assoc. reflexivity.
Qed.
(** Names *)
Definition fixed_names (sc : scmap) : list string := map fst (front sc) ++ ["aVkToWcharTable"; "KbdTables"].
Definition fixed_list : list string := Eval vm_compute in fixed_names [].
Lemma fixed_eq sc : fixed_names sc = fixed_list.
Proof. reflexivity. Qed.
Lemma fixed_no_table : forallb (fun s => match table_name s with None => true | _ => false end) fixed_list = true.
Proof. vm_compute. reflexivity. Qed.
Lemma fixed_nodup : NoDup fixed_list.
Proof. apply nodupb_NoDup. vm_compute. reflexivity. Qed.
Lemma tname_not_fixed t sc : good_name t -> ~ In (tname t) (fixed_names sc).
Proof.
  intros H Hi. rewrite fixed_eq in Hi. pose proof fixed_no_table as F. rewrite forallb_forall in F. specialize (F _ Hi). rewrite (table_name_tname t H) in F. discriminate.
Qed.
Lemma tname_inj t t' : good_name t -> good_name t' -> tname t = tname t' -> t = t'.
Proof. intros H H' E. pose proof (table_name_tname t H) as A. rewrite E, (table_name_tname t' H') in A. congruence. Qed.
