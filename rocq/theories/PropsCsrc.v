(** C98: the C source of the Windows driver means its tables. *)
From Coq Require Import Ascii.
From Verif Require Import Base LayoutModel DataWinkbd DataCsrc WinkbdModel WinkbdSpec WinkbdProofs KlcModel DataKeyboard CsrcModel CsrcSpec CsrcLex CsrcLines CsrcTrees CsrcChunks CsrcProofs CsrcRead PropsWinkbd.
Open Scope string_scope.
Open Scope list_scope.

(** Whatever the keyboard and the characters are, a C compiler reads the tables
    of the driver from the source, if every scancode has a key and the number of
    characters of every key is one to eight.  Comments do not matter. *)
Theorem C98_reads printable ord sc cm d t : makeDriverSources sc cm = Ok d -> sourceText printable ord sc cm = Ok t ->
  Forall (fun kv => snd kv <> []) sc -> Forall (fun r : charrow => 1 <= List.length (snd r) <= 8) cm ->
  read_source t = Some d.
Proof.
  intros Ed Et Hs Hc. assert (C : columns_ok cm).
  { unfold columns_ok. eapply Forall_impl; [|exact Hc]. intros r Hr. cbv beta in *. unfold declared_columns. apply in_seq. unfold ncols. lia. }
  destruct (source_read printable ord sc cm d Hs C Ed) as (t' & Et' & Hr). rewrite Et in Et'. injection Et' as <-. exact Hr.
Qed.

(** The source is written iff there are tables, and the exception is the same. *)
Definition alike {A X} (a : res A) (b : res X) : Prop :=
  match a, b with Ok _, Ok _ => True | Raise e, Raise e' => e = e' | _, _ => False end.
Lemma alike_mapM {A X Y} (f : A -> res X) (g : A -> res Y) l : (forall a, alike (f a) (g a)) -> alike (mapM f l) (mapM g l).
Proof.
  intros H. induction l as [|a l IH]; [exact I|]. cbn [mapM]. specialize (H a). unfold alike in *. destruct (f a), (g a); cbn [bind]; try contradiction; [|exact H].
  destruct (mapM f l), (mapM g l); cbn [bind]; try contradiction; auto.
Qed.
Lemma alike_bind {A X Y Z} (a : res A) (b : res X) (f : A -> Y) (g : X -> Z) : alike a b -> alike (do x <- a; Ok (f x)) (do x <- b; Ok (g x)).
Proof. destruct a, b; cbn; auto. Qed.
Lemma alike_eq {A X} (a : res A) (b : res X) : alike a b -> ((exists x, a = Ok x) <-> exists y, b = Ok y) /\ forall e, a = Raise e <-> b = Raise e.
Proof.
  destruct a, b; cbn; intros H; try contradiction.
  - split; [split; intros _; eauto|]. intros e. split; discriminate.
  - subst. split; [split; intros [? X']; discriminate|]. intros e'. split; intros E; inversion E; reflexivity.
Qed.
Lemma rows_alike printable g : alike (mapM (rowText printable) g)
  (mapM (fun r : charrow => let '(v, fl, cs) := r in do chars <- mapM toRepr cs; Ok (mkW (CName (cdefName (KVk v))) fl chars)) g).
Proof.
  apply alike_mapM. intros [[v fl] cs]. unfold rowText. apply alike_bind, alike_mapM. intros [[[|c [|c' t]]|]|]; cbn; auto.
Qed.
Lemma table_alike printable t n g : alike (tableText printable t g) (generate n g).
Proof. unfold tableText, generate. cbv zeta. apply alike_bind, rows_alike. Qed.
Lemma wch_alike printable cm : alike (vkToWcharText printable cm) (vkToWchar cm).
Proof.
  unfold vkToWcharText, vkToWchar. cbv zeta. generalize (groupby ncols (sorted_by (fun a b => Nat.leb (ncols a) (ncols b)) cm)). intros gs.
  pose proof (table_alike printable ("Num", 1) 1 numpad) as Hn. destruct (generate 1 numpad) as [np|] eqn:En; [|vm_compute in En; discriminate En].
  destruct (tableText printable ("Num", 1) numpad) as [tn|] eqn:Et; [|contradiction].
  match goal with |- alike (do _ <- mapM ?F _; _) (do _ <- mapM ?G _; _) =>
    assert (M : alike (mapM F (map (fun ng => (("", fst ng), snd ng)) gs ++ [(("Num", 1), numpad)])) (mapM G gs)) end.
  { induction gs as [|[n g] gs IH]; cbn [map app mapM fst snd].
    - rewrite Et. exact I.
    - pose proof (table_alike printable ("", n) n g) as H. unfold alike in *. destruct (tableText printable ("", n) g), (generate n g); cbn [bind]; try contradiction; [|exact H].
      match goal with |- match (do _ <- ?a; _) with _ => _ end => destruct a end; match goal with |- match _ with Ok _ => match (do _ <- ?a; _) with _ => _ end | _ => _ end => destruct a | _ => idtac end; cbn [bind]; auto. }
  unfold alike in *. match type of M with match ?a with _ => _ end => destruct a end; match type of M with match ?b with _ => _ end => destruct b end; cbn [bind]; auto.
Qed.
Theorem C98_fails printable ord sc cm : ((exists t, sourceText printable ord sc cm = Ok t) <-> exists d, makeDriverSources sc cm = Ok d) /\
  forall e, sourceText printable ord sc cm = Raise e <-> makeDriverSources sc cm = Raise e.
Proof. apply alike_eq. unfold sourceText, makeDriverSources. apply alike_bind, wch_alike. Qed.

(** The file of the renderer: the two models of renderWinKbd agree for layouts of
    up to eight layers. *)
Lemma shipped_names : Forall (fun kv : list N * list key => snd kv <> []) scancodeToVk.
Proof.
  assert (E : forallb (fun kv : list N * list key => match snd kv with [] => false | _ => true end) scancodeToVk = true) by (vm_compute; reflexivity).
  apply Forall_forall. intros kv Hk. rewrite forallb_forall in E. specialize (E kv Hk). destruct (snd kv); [discriminate E|discriminate].
Qed.
Lemma header_read t : read_source (lit "/* This header was auto-generated by lulua. Do not modify directly. */" ++ nl ++ nl ++ t) = read_source t.
Proof.
  unfold read_source. assert (H : lex S0 (lit "/* This header was auto-generated by lulua. Do not modify directly. */" ++ nl ++ nl) = ([TNl; TNl], S0)) by (vm_compute; reflexivity).
  rewrite 2 app_assoc, lex_app. rewrite <- app_assoc, H. cbn [fst snd]. destruct (lex S0 t) as [us s]. cbn [fst snd app cpp pstep]. destruct (cpp PBegin us). reflexivity.
Qed.
Theorem C98_file printable ord name L keys : List.length (layers L) <= 8 ->
  match winKbdFile printable ord name L keys, renderWinKbd name L keys with
  | Ok (Some t), Ok (Some d) => read_source t = Some d
  | Ok None, Ok None => name <> "ar-lulua"
  | Raise e, Raise e' => e = e'
  | _, _ => False
  end.
Proof.
  intros H8. unfold winKbdFile, renderWinKbd. destruct (eqb_spec name "ar-lulua") as [->|Hn]; [|exact Hn].
  destruct (wcharMap scancodeToVk L keys) as [cm|e] eqn:Ec; cbn [bind]; [|reflexivity].
  destruct (C98_fails printable ord scancodeToVk cm) as [F1 F2].
  destruct (makeDriverSources scancodeToVk cm) as [d|e] eqn:Ed; cbn [bind].
  - destruct (proj2 F1 (ex_intro _ d eq_refl)) as [t Et]. rewrite Et. cbn [bind]. rewrite header_read.
    apply (C98_reads printable ord scancodeToVk cm d t Ed Et shipped_names). apply Forall_forall. intros r Hr.
    apply (wcharMap_In L keys cm r Ec) in Hr as (btn & v & _ & (i & c & Hi) & _ & ->). cbn [snd]. rewrite map_length.
    assert (i < List.length (getButtonText L (fst btn))) by (apply nth_error_Some; congruence). unfold getButtonText in *. rewrite map_length in *. lia.
  - rewrite (proj2 (F2 e) eq_refl). cbn [bind]. reflexivity.
Qed.
(** So the driver made from the file types what the layout says. *)
Theorem C98_types printable ord L keys t btn i : winKbdFile printable ord "ar-lulua" L keys = Ok (Some t) -> List.length (layers L) <= 8 -> separate L keys ->
  In btn (unique_sc keys) -> has_text L (fst btn) ->
  (forall j c, nth_error (getButtonText L (fst btn)) j = Some (Some c) -> bmp c) ->
  exists d, read_source t = Some d /\ press_yields d (snd btn) i (expected (nth i (getButtonText L (fst btn)) None)).
Proof.
  intros Et H8 Hs Hb Ht Hc. pose proof (C98_file printable ord "ar-lulua" L keys H8) as F. rewrite Et in F.
  destruct (renderWinKbd "ar-lulua" L keys) as [[d|]|] eqn:Ed; try contradiction. exists d. split; [exact F|]. eapply C70_types; eassumption.
Qed.
(** The shipped layout has a file. *)
Theorem C98_shipped printable ord : exists t d, winKbdFile printable ord "ar-lulua" lulua (kb_codes ibmpc105) = Ok (Some t) /\ read_source t = Some d /\
  renderWinKbd "ar-lulua" lulua (kb_codes ibmpc105) = Ok (Some d).
Proof.
  destruct C70_shipped as (d & Ed & _). assert (H8 : List.length (layers lulua) <= 8) by (apply Nat.leb_le; vm_compute; reflexivity).
  pose proof (C98_file printable ord "ar-lulua" lulua (kb_codes ibmpc105) H8) as F. rewrite Ed in F.
  destruct (winKbdFile printable ord "ar-lulua" lulua (kb_codes ibmpc105)) as [[t|]|]; try contradiction. exists t, d. auto.
Qed.

(** A key with nine characters has a table of a type that is not declared. *)
Definition nine : list charrow := [(vk "A", 0%N, repeat None 9)].
Theorem C98_reads_needs_columns : exists sc cm d t, makeDriverSources sc cm = Ok d /\ sourceText (fun _ => true) (fun l => l) sc cm = Ok t /\
  Forall (fun kv => snd kv <> []) sc /\ Forall (fun r : charrow => List.length (snd r) = 9) cm /\ read_source t = None.
Proof.
  destruct (makeDriverSources [] nine) as [d|] eqn:Ed; [|vm_compute in Ed; discriminate Ed].
  destruct (sourceText (fun _ => true) (fun l => l) [] nine) as [t|] eqn:Et; [|vm_compute in Et; discriminate Et].
  exists [], nine, d, t. split; [exact Ed|]. split; [exact Et|]. split; [constructor|]. split; [repeat constructor|]. clear Ed d.
  assert (R : (do t <- sourceText (fun _ => true) (fun l => l) [] nine; Ok (match read_source t with None => true | _ => false end)) = Ok true) by (vm_compute; reflexivity).
  rewrite Et in R. cbn [bind] in R. destruct (read_source t); [discriminate R|reflexivity].
Qed.
(** A scancode without key is a syntax error. *)
Theorem C98_reads_needs_names : exists sc cm d t, makeDriverSources sc cm = Ok d /\ sourceText (fun _ => true) (fun l => l) sc cm = Ok t /\
  cm = [] /\ In ([2%N], []) sc /\ read_source t = None.
Proof.
  destruct (makeDriverSources [([2%N], [])] []) as [d|] eqn:Ed; [|vm_compute in Ed; discriminate Ed].
  destruct (sourceText (fun _ => true) (fun l => l) [([2%N], [])] []) as [t|] eqn:Et; [|vm_compute in Et; discriminate Et].
  exists [([2%N], [])], [], d, t. split; [exact Ed|]. split; [exact Et|]. split; [reflexivity|]. split; [left; reflexivity|]. clear Ed d.
  assert (R : (do t <- sourceText (fun _ => true) (fun l => l) [([2%N], [])] []; Ok (match read_source t with None => true | _ => false end)) = Ok true) by (vm_compute; reflexivity).
  rewrite Et in R. cbn [bind] in R. destruct (read_source t); [discriminate R|reflexivity].
Qed.
(** Lines of the source: a star and a slash as text stay inside of their comments. *)
Example C98_example :
  rowText (fun _ => true) (vk "A", 0%N, [Some (CText [42%N]); Some (CText [47%N]); None; Some (CText [0x628%N])]) =
    Ok (tab ++ lit "{VIRTUALKEY_A, 0, {0x002Au /*'*'*/, 0x002Fu /*'/'*/, WCHAR_NONE, 0x0628u /*'" ++ [0x628%N] ++ lit "'*/}}," ) /\
  lex S0 (lit "{0x002Au /*'*'*/, 0x002Fu /*'/'*/}") = ([TP "{"; TNum 42; TP ","; TNum 47; TP "}"], S0) /\
  lex S0 (lit "0x2F /*/*/, 1") = ([TNum 47; TBad; TP ","], SNum [49%N]) /\
  modText (fun l => rev l) 17 = tab ++ tab ++ lit "0x4, /* VIRTUALKEY_OEM_102 | VIRTUALKEY_SHIFT */" /\
  Forall (fun kv => snd kv <> []) scancodeToVk /\ List.length (layers lulua) = 4.
Proof. repeat split; try (vm_compute; reflexivity). exact shipped_names. Qed.

Print Assumptions C98_reads.
Print Assumptions C98_fails.
Print Assumptions C98_file.
Print Assumptions C98_types.
Print Assumptions C98_shipped.
Print Assumptions C98_reads_needs_columns.
Print Assumptions C98_reads_needs_names.
