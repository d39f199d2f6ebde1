(** C62-C65: import of Microsoft Keyboard Layout Creator files. *)
From Verif Require Import Base KeyboardModel LayoutModel LayoutSpec LayoutProofs DataKeyboard KlcModel KlcSpec KlcProofs.
Open Scope string_scope.
Open Scope list_scope.

(** Hexadecimal numbers without prefix: an instance of [int(_, 16)] for examples. *)
Definition hexdigit (c : N) : option Z :=
  if N.leb 48 c && N.leb c 57 then Some (Z.of_N c - 48)%Z
  else if N.leb 97 c && N.leb c 102 then Some (Z.of_N c - 87)%Z
  else if N.leb 65 c && N.leb c 70 then Some (Z.of_N c - 55)%Z else None.
Definition hexnat (t : text) : option Z :=
  match t with
  | [] => None
  | _ => fold_left (fun a c => match a, hexdigit c with Some n, Some d => Some (16 * n + d)%Z | _, _ => None end) t (Some 0%Z)
  end.
Definition hexint (t : text) : option Z :=
  match t with 45%N :: t' => option_map Z.opp (hexnat t') | _ => hexnat t end.
Definition tab : string := String (ascii_of_N 9) "".

(** * C62: rows end up on their buttons *)
Lemma says_dec int16 nfd r i b : (exists t, says int16 nfd r i b t) \/ (forall t, ~ says int16 nfd r i b t).
Proof.
  destruct r as [|sc [|vk [|cap codes]]]; try (right; intros t (a1 & a2 & a3 & a4 & a5 & Hf & _); discriminate).
  destruct (dget vkToButton vk) as [b0|] eqn:Eb.
  - destruct (eqb_spec b b0) as [<-|Hn].
    + apply vk_In in Eb. destruct (nth_error codes i) as [c|] eqn:Ec.
      * destruct (codeToText int16 nfd c) as [[t|]|] eqn:Et.
        -- apply codeToText_some in Et. left. exists t, sc, vk, cap, codes, c. auto.
        -- right. intros t (a1 & a2 & a3 & a4 & a5 & E & _ & Hc & Ht). inversion E; subst.
           apply codeToText_some in Ht. congruence.
        -- right. intros t (a1 & a2 & a3 & a4 & a5 & E & _ & Hc & Ht). inversion E; subst.
           apply codeToText_some in Ht. congruence.
      * right. intros t (a1 & a2 & a3 & a4 & a5 & E & _ & Hc & _). inversion E; subst. congruence.
    + right. intros t (a1 & a2 & a3 & a4 & a5 & E & Hb & _). inversion E; subst. apply vk_In in Hb. congruence.
  - right. intros t (a1 & a2 & a3 & a4 & a5 & E & Hb & _). inversion E; subst. apply vk_In in Hb. congruence.
Qed.
Lemma last_says_dec int16 nfd rows i b :
  (exists t, last_says int16 nfd rows i b t) \/ (forall r t, In r rows -> ~ says int16 nfd r i b t).
Proof.
  induction rows as [|r rows IH]; [right; intros ? ? []|].
  destruct IH as [(t & pre & r' & post & -> & Hs & Hn)|Hn].
  - left. exists t, (r :: pre), r', post. auto.
  - destruct (says_dec int16 nfd r i b) as [[t Ht]|Hr].
    + left. exists t, [], r, rows. repeat split; auto.
    + right. intros r' t [<-|Hr']; [apply Hr|apply Hn, Hr'].
Qed.
(** Layer [i] has text [t] on button [b] iff the last row with a text for that
    place says so. *)
Theorem C62_import int16 nfd file rows ls :
  klc_file file rows -> fromKlc int16 nfd file = Ok ls ->
  length ls = 6 /\
  (forall i b t, dget (nth i ls []) b = Some t <-> last_says int16 nfd rows i b t).
Proof.
  intros Hf E. rewrite (klc_file_rows int16 nfd file rows Hf) in E.
  destruct (rows_ok _ _ _ _ _ E) as [H1 H2]. split; [exact H1|]. intros i b t. destruct (H2 i b) as [A B].
  split; [|intros Hl; apply A, Hl].
  intros Hd. destruct (last_says_dec int16 nfd rows i b) as [[t' Ht']|Hn].
  - destruct (A t' Ht') as [_ Ht]. assert (t = t') by congruence. subst; exact Ht'.
  - rewrite (B Hn) in Hd. clear - Hd. do 7 (destruct i as [|i]; [discriminate|]). cbn in Hd. destruct i; discriminate.
Qed.
(** Two rows for the same key, a comment, an unused column and a ligature
    section that is not read. *)
Definition klc_example : list text := [
  lit "KBD test ""a key;board"""; lit ("LAYOUT" ++ tab ++ ";an extra '@' is a dead key"); lit "";
  lit "//SC VK Cap 0 1 2";
  lit ("10" ++ tab ++ "Q" ++ tab ++ tab ++ "1" ++ tab ++ "0071" ++ tab ++ "0051 -1 // LATIN SMALL LETTER Q");
  lit "  11 W 1 %% 0057 ; w // W"; lit "12 E 0 0065"; lit "12 E 0 0045 0046"; lit "53 DECIMAL 0 002e";
  lit "LIGATURE"; lit "10 Q 1 zzz"].
Definition klc_example_rows : list (list text) := map (map lit) [
  []; []; ["10"; "Q"; "1"; "0071"; "0051"; "-1"]; ["11"; "W"; "1"; "%%"; "0057"];
  ["12"; "E"; "0"; "0065"]; ["12"; "E"; "0"; "0045"; "0046"]; ["53"; "DECIMAL"; "0"; "002e"]].
Example C62_example_result :
  fromKlc hexint (fun t => t) klc_example =
  Ok [[("Cl1", [113%N]); ("Cl3", [69%N])]; [("Cl1", [81%N]); ("Cl2", [87%N]); ("Cl3", [70%N])]; []; []; []; []].
Proof. vm_compute. reflexivity. Qed.
Lemma word_lit s : negb (eqb (lit s) []) && forallb (fun c => negb (is_space c) && negb (N.eqb c 47) && negb (N.eqb c 59)) (lit s) = true ->
  word (lit s).
Proof.
  intros H. apply andb_true_iff in H as [H1 H2]. split.
  - intros E. rewrite E in H1. discriminate.
  - apply Forall_forall. intros c Hc. rewrite forallb_forall in H2. specialize (H2 c Hc).
    rewrite !andb_true_iff, !negb_true_iff, !N.eqb_neq, is_space_false in H2. tauto.
Qed.
Lemma blank_lit s : forallb is_space (lit s) = true -> blank (lit s).
Proof. intros H. apply Forall_forall. intros c Hc. apply is_space_iff. revert c Hc. apply forallb_forall, H. Qed.
Definition wordb (s : string) : bool :=
  negb (eqb (lit s) []) && forallb (fun c => negb (is_space c) && negb (N.eqb c 47) && negb (N.eqb c 59)) (lit s).
Fixpoint glue (w : string) (r : list (string * string)) : text :=
  match r with [] => lit w | (s, w') :: r' => lit w ++ lit s ++ glue w' r' end.
Lemma spaced_glue w r : wordb w && forallb (fun sw => negb (eqb (lit (fst sw)) []) && forallb is_space (lit (fst sw)) && wordb (snd sw)) r = true ->
  spaced (lit w :: map (fun sw => lit (snd sw)) r) (glue w r).
Proof.
  revert w; induction r as [|[s w'] r IH]; intros w H; apply andb_true_iff in H as [Hw Hr]; cbn [map glue].
  - apply spaced_one, word_lit, Hw.
  - cbn [forallb fst snd] in Hr. rewrite !andb_true_iff in Hr. destruct Hr as [[[H1 H2] H3] H4].
    apply spaced_cons; [apply word_lit, Hw| |apply blank_lit, H2|apply IH; rewrite H3; exact H4].
    intros E. rewrite E in H1. discriminate.
Qed.
Lemma not_contains_lit p l : forallb (fun n => negb (starts p (skipn n l))) (seq 0 (S (List.length l))) = true -> ~ contains p l.
Proof.
  intros H (a & b & ->). rewrite forallb_forall in H. specialize (H (List.length a)).
  rewrite in_seq, app_length in H. specialize (H ltac:(lia)).
  rewrite skipn_app, skipn_all, Nat.sub_diag in H. cbn [skipn app] in H.
  apply negb_true_iff in H. rewrite (proj2 (starts_iff p (p ++ b))) in H by eauto. discriminate.
Qed.
Example C62_example_file : klc_file klc_example klc_example_rows.
Proof.
  assert (W1 : word (lit "10")) by (apply word_lit; reflexivity).
  assert (T1 : blank (lit tab)) by (apply blank_lit; reflexivity).
  assert (T0 : blank []) by constructor.
  assert (S1 : blank (lit " ")) by (apply blank_lit; reflexivity).
  exists [lit "KBD test ""a key;board"""], (lit ("LAYOUT" ++ tab ++ ";an extra '@' is a dead key")),
    (firstn 7 (skipn 2 klc_example)), (skipn 9 klc_example).
  split; [reflexivity|]. split; [|split; [|split; [|split]]].
  - constructor; [|constructor]. apply not_contains_lit. vm_compute. reflexivity.
  - exists [], (lit (tab ++ ";an extra '@' is a dead key")). split; [constructor|reflexivity].
  - constructor; [|constructor; [|constructor; [|constructor; [|constructor; [|constructor; [|constructor; [|constructor]]]]]]].
    + apply (written_nil [] []); [constructor|left; reflexivity].
    + apply (written_nil [] (lit "//SC VK Cap 0 1 2")); [constructor|right; left; exists (lit "SC VK Cap 0 1 2"); reflexivity].
    + apply (written_words [] _ (lit ("10" ++ tab ++ "Q" ++ tab ++ tab ++ "1" ++ tab ++ "0071" ++ tab ++ "0051 -1")) (lit " ")
        (lit "// LATIN SMALL LETTER Q")); [constructor| |exact S1|right; left; exists (lit " LATIN SMALL LETTER Q"); reflexivity].
      exact (spaced_glue "10" [(tab, "Q"); ((tab ++ tab)%string, "1"); (tab, "0071"); (tab, "0051"); (" ", "-1")] eq_refl).
    + apply (written_words (lit "  ") _ (lit "11 W 1 %% 0057") (lit " ") (lit "; w // W"));
        [apply blank_lit; reflexivity| |exact S1|right; right; exists (lit " w "), (lit " W"); reflexivity].
      exact (spaced_glue "11" [(" ", "W"); (" ", "1"); (" ", "%%"); (" ", "0057")] eq_refl).
    + apply (written_words [] _ (lit "12 E 0 0065") [] []); [constructor| |constructor|left; reflexivity].
      exact (spaced_glue "12" [(" ", "E"); (" ", "0"); (" ", "0065")] eq_refl).
    + apply (written_words [] _ (lit "12 E 0 0045 0046") [] []); [constructor| |constructor|left; reflexivity].
      exact (spaced_glue "12" [(" ", "E"); (" ", "0"); (" ", "0045"); (" ", "0046")] eq_refl).
    + apply (written_words [] _ (lit "53 DECIMAL 0 002e") [] []); [constructor| |constructor|left; reflexivity].
      exact (spaced_glue "53" [(" ", "DECIMAL"); (" ", "0"); (" ", "002e")] eq_refl).
  - apply Forall_forall. intros ws Hws. split.
    + intros ->. cbn in Hws. repeat (destruct Hws as [Hws|Hws]; [discriminate Hws|]). exact Hws.
    + intros w ws' -> [x ->]. cbn in Hws. repeat (destruct Hws as [Hws|Hws]; [discriminate Hws|]). exact Hws.
  - right. exists (lit "LIGATURE"), [lit "10 Q 1 zzz"]. split; [reflexivity|]. split.
    + apply (written_words [] _ (lit "LIGATURE") [] []); [constructor| |constructor|left; reflexivity].
      apply spaced_one, word_lit; reflexivity.
    + constructor; [|constructor]. apply not_contains_lit. vm_compute. reflexivity.
Qed.

(** * C63: failures *)
(** The import succeeds iff every row is well formed. *)
Theorem C63_succeeds int16 nfd file rows : klc_file file rows ->
  ((exists ls, fromKlc int16 nfd file = Ok ls) <-> forall r, In r rows -> row_ok int16 nfd r).
Proof.
  intros Hf. rewrite (klc_file_rows int16 nfd file rows Hf).
  assert (G : forall ls, List.length ls = 6 ->
    (exists ls', foldM (words_row int16 nfd) rows ls = Ok ls') <-> forall r, In r rows -> row_ok int16 nfd r).
  { clear Hf. induction rows as [|r rows IH]; intros ls Hl; cbn [foldM]; [split; [intros _ ? []|eauto]|].
    split.
    - intros [ls' E]. destruct (words_row int16 nfd ls r) as [ls1|] eqn:E1; cbn [bind] in E; [|discriminate].
      destruct (words_row_ok _ _ _ _ _ E1) as [Hl1 _]. intros r' [<-|Hr'].
      + eapply words_row_ok_inv; eassumption.
      + apply (proj1 (IH ls1 ltac:(congruence))); eauto.
    - intros H. destruct (words_row_run int16 nfd ls r Hl (H r (or_introl eq_refl))) as [ls1 E1]. rewrite E1. cbn [bind].
      destruct (words_row_ok _ _ _ _ _ E1) as [Hl1 _]. apply IH; [congruence|]. intros r' Hr'. apply H. right; exact Hr'. }
  apply G. reflexivity.
Qed.
(** The first ill-formed row decides which exception is raised. *)
Theorem C63_errors int16 nfd file pre sc vk cap codes post :
  klc_file file (pre ++ (sc :: vk :: cap :: codes) :: post) -> Forall (row_ok int16 nfd) pre ->
  (~ cells_ok int16 nfd codes -> fromKlc int16 nfd file = Raise ValueError) /\
  (cells_ok int16 nfd codes -> ~ known vk -> fromKlc int16 nfd file = Raise AssertionError) /\
  (cells_ok int16 nfd codes -> known vk -> ~ fits int16 nfd vk codes -> fromKlc int16 nfd file = Raise IndexError).
Proof.
  intros Hf Hp. rewrite (klc_file_rows int16 nfd _ _ Hf), foldM_app.
  assert (G : exists ls, foldM (words_row int16 nfd) pre (repeat [] 6) = Ok ls /\ List.length ls = 6).
  { assert (G0 : forall ls, List.length ls = 6 -> exists ls', foldM (words_row int16 nfd) pre ls = Ok ls' /\ List.length ls' = 6).
    { clear Hf. induction Hp as [|r pre Hr _ IH]; intros ls Hl; [exists ls; auto|]. cbn [foldM].
      destruct (words_row_run int16 nfd ls r Hl Hr) as [ls1 E1]. rewrite E1. cbn [bind].
      apply IH. destruct (words_row_ok _ _ _ _ _ E1) as [Hl1 _]. congruence. }
    apply G0. reflexivity. }
  destruct G as (ls & -> & Hl). cbn [bind foldM].
  assert (G : row_ok int16 nfd (sc :: vk :: cap :: codes) -> cells_ok int16 nfd codes /\ known vk /\ fits int16 nfd vk codes).
  { intros Hr. apply (Hr sc vk cap codes eq_refl). }
  destruct (words_row int16 nfd ls (sc :: vk :: cap :: codes)) as [ls1|e] eqn:E; cbn [bind].
  - apply words_row_ok_inv in E; [|exact Hl]. apply G in E. tauto.
  - destruct (words_row_err _ _ _ _ _ E) as (sc' & vk' & cap' & codes' & Ew & H). inversion Ew; subst.
    destruct H as [[-> H]|[(-> & H1 & H2)|(-> & H1 & H2 & b & i & c & t & Hb & Hc & Ht & Hi)]]; split; try tauto; split; try tauto.
Qed.
(** Whatever the file is: six dictionaries whose keys are buttons of the table
    and whose texts are single characters, decomposed. *)
Definition klc_cell_shape (nfd : text -> text) (kv : string * text) : Prop :=
  (exists vk, In (vk, fst kv) vkToButton) /\ exists n, (0 <= n < 0x110000)%N /\ snd kv = nfd [n].
Theorem C63_shape int16 nfd file ls : fromKlc int16 nfd file = Ok ls ->
  List.length ls = 6 /\ Forall (fun l => dict_wf l /\ Forall (klc_cell_shape nfd) l) ls.
Proof.
  unfold fromKlc. destruct (foldM (klc_line int16 nfd) file (false, repeat [] 6)) as [[m ls']|] eqn:E; cbn [bind snd]; [|discriminate].
  intros E'; inversion E'; subst ls'; clear E'.
  set (inv := fun ls : klayers => List.length ls = 6 /\ Forall (fun l => dict_wf l /\ Forall (klc_cell_shape nfd) l) ls).
  assert (D : forall d k v, Forall (klc_cell_shape nfd) d -> klc_cell_shape nfd (k, v) -> Forall (klc_cell_shape nfd) (dset d k v)).
  { induction d as [|[a b] d IH]; intros k v Hd Hk; cbn; [constructor; auto|].
    inversion Hd; subst. destruct (String.eqb_spec k a) as [->|]; constructor; auto. }
  assert (P : forall ls i b c ls', inv ls -> klc_cell_shape nfd (b, c) -> put ls i b c = Ok ls' -> inv ls').
  { intros l0 i b c ls' [Hl Hf] Hc Hp. destruct (put_ok _ _ _ _ _ Hp) as (P1 & P2 & _). split; [congruence|].
    rewrite put_spec in Hp. destruct (Nat.ltb_spec i (List.length l0)); [|lia]. assert (Ep : ls' = firstn i l0 ++ dset (nth i l0 []) b c :: skipn (S i) l0) by congruence. rewrite Ep. clear Ep Hp P2.
    rewrite <- (firstn_skipn i l0) in Hf. apply Forall_app in Hf as [F1 F2].
    destruct (skipn i l0) as [|l1 rest] eqn:Es; [apply (f_equal (@List.length _)) in Es; rewrite skipn_length in Es; cbn in Es; lia|].
    assert (En : nth i l0 [] = l1).
    { rewrite <- (firstn_skipn i l0), Es, app_nth2; rewrite firstn_length_le by lia; [|lia]. now rewrite Nat.sub_diag. }
    assert (Er : skipn (S i) l0 = rest).
    { clear - Es. revert l0 Es; induction i as [|i IH]; intros [|x l0] Es; cbn in *; try discriminate; [congruence|]. apply IH, Es. }
    rewrite En, Er. inversion F2 as [|? ? [W1 W2] F3]; subst. apply Forall_app. split; [exact F1|]. constructor; [|exact F3].
    split; [apply dset_wf, W1|apply D; assumption]. }
  assert (R : forall ls line ls', inv ls -> klc_row int16 nfd ls line = Ok ls' -> inv ls').
  { intros l0 line ls' Hi. unfold klc_row. destruct (split_ws line) as [|sc [|vk [|cap code]]]; try (intros E1; inversion E1; subst; exact Hi).
    destruct (mapM (codeToText int16 nfd) code) as [cs|] eqn:Ec; cbn [bind]; [|discriminate].
    destruct (dget vkToButton vk) as [b|] eqn:Eb.
    - apply vk_In in Eb. unfold put_codes.
      assert (Hcs : Forall (fun ic : nat * option text => match snd ic with Some t => klc_cell_shape nfd (b, t) | None => True end) (enumerate cs)).
      { apply mapM_Ok_inv in Ec. unfold enumerate. generalize 0 at 1. clear - Ec Eb.
        induction Ec as [|c o code cs Hc _ IH]; intros k; cbn; constructor; [|apply IH].
        destruct o as [t|]; cbn; [|exact I]. split; [exists vk; exact Eb|].
        apply codeToText_some in Hc as (_ & n & _ & Hn & ->). exists (Z.to_N n). split; [lia|reflexivity]. }
      revert l0 Hi. induction Hcs as [|[i o] l Ho _ IH]; intros l0 Hi; cbn [foldM fst snd]; [intros E1; inversion E1; subst; exact Hi|].
      destruct (match o with Some c => put l0 i b c | None => Ok l0 end) as [l1|] eqn:E1; cbn [bind]; [|discriminate].
      apply IH. destruct o as [t|]; [exact (P l0 i b t l1 Hi Ho E1)|congruence].
    - unfold assert_. destruct (eqb vk (lit "DECIMAL")); cbn [bind]; [|discriminate]. intros E1; inversion E1; subst; exact Hi. }
  assert (G : forall file m ls0 m' ls', inv ls0 -> foldM (klc_line int16 nfd) file (m, ls0) = Ok (m', ls') -> inv ls').
  { clear E file ls m. induction file as [|line file IH]; intros m ls0 m' ls' Hi; cbn [foldM]; [intros E1; inversion E1; subst; exact Hi|].
    destruct (klc_line int16 nfd (m, ls0) line) as [[m1 l1]|] eqn:E1; cbn [bind]; [|discriminate].
    apply IH. revert E1. unfold klc_line.
    destruct (starts (lit "LAYOUT") (strip (strip_comment line))); [intros E1; inversion E1; subst; exact Hi|].
    destruct (eqb (strip (strip_comment line)) (lit "LIGATURE")); [intros E1; inversion E1; subst; exact Hi|].
    destruct m; [|intros E1; inversion E1; subst; exact Hi].
    destruct (klc_row int16 nfd ls0 (strip (strip_comment line))) as [l2|] eqn:E2; cbn [bind]; [|discriminate].
    intros E1; inversion E1; subst. eapply R; eassumption. }
  refine (G file _ _ _ _ _ E). split; [reflexivity|]. repeat constructor.
Qed.
(** A bad number, an unknown key, a text in the seventh column. *)
Definition klc_try (row : string) : res klayers := fromKlc hexint (fun t => t) [lit "LAYOUT"; lit row].
Example C63_example :
  (klc_try "10 Q 0 xyz", klc_try "10 FOO 0 0071", klc_try "10 Q 0 -1 -1 -1 -1 -1 -1 0071", klc_try "10 Q 0 -1 -1 -1 -1 -1 -1 -1",
   klc_try "10 Q 0 110000", klc_try "10 FOO 0 xyz") =
  (Raise ValueError, Raise AssertionError, Raise IndexError, Ok (repeat [] 6), Raise ValueError, Raise ValueError).
Proof. vm_compute. reflexivity. Qed.

(** * C64: comments *)
(** A [//] remark, with or without a preceding [;], has no effect. *)
Theorem C64_comments_partial int16 nfd f1 a r f2 : clear_of a -> remark r ->
  fromKlc int16 nfd (f1 ++ (a ++ r) :: f2) = fromKlc int16 nfd (f1 ++ a :: f2).
Proof.
  intros Ha Hr. unfold fromKlc. rewrite !foldM_app.
  destruct (foldM (klc_line int16 nfd) f1 (false, repeat [] 6)) as [[m ls]|]; cbn [bind foldM]; [|reflexivity].
  assert (E : klc_line int16 nfd (m, ls) (a ++ r) = klc_line int16 nfd (m, ls) a).
  { unfold klc_line. rewrite strip_comment_remark by assumption.
    assert (E : strip_comment a = a) by (rewrite <- (app_nil_r a) at 1; apply strip_comment_remark; [exact Ha|left; reflexivity]).
    rewrite E. reflexivity. }
  rewrite E. reflexivity.
Qed.
Example C64_example : clear_of (lit "10 Q 0 0071 ") /\ remark (lit "; q // Q").
Proof.
  split; [split; apply Forall_forall; intros c Hc; cbn in Hc; repeat (destruct Hc as [<-|Hc]; [discriminate|]); contradiction|].
  right; right. exists (lit " q "), (lit " Q"). reflexivity.
Qed.
(** A [;] remark alone is not removed, so it is read as a column. *)
Theorem C64_comments_refuted : exists int16 nfd f1 a x f2, clear_of a /\
  fromKlc int16 nfd (f1 ++ (a ++ lit ";" ++ x) :: f2) <> fromKlc int16 nfd (f1 ++ a :: f2).
Proof.
  exists hexint, (fun t => t), [lit "LAYOUT"], (lit "10 Q 0 0071 "), (lit "q"), [].
  split; [apply C64_example|]. vm_compute. discriminate.
Qed.

(** * C65: use of the imported layout *)
Definition kb_names (kb : list (list kbutton * list kbutton)) : list string :=
  map kb_name (flat_map (fun r => fst r ++ snd r) kb).
(** On a keyboard with all the buttons of the table and of the modifiers the
    imported layout can be used and has exactly the imported texts. *)
Theorem C65_specialize_partial int16 nfd file ls ord names :
  fromKlc int16 nfd file = Ok ls -> (forall s, Permutation (ord s) (elems s)) ->
  incl (map snd vkToButton ++ concat (concat layerSwitches)) names ->
  specialize ord names (generic_deserialize (klc_data ls)) = Ok (layout_new (glayers (generic_deserialize (klc_data ls)))) /\
  forall i b, match nth_error (glayers (generic_deserialize (klc_data ls))) i with
              | Some l => lmods l = map frozenset (nth i layerSwitches []) /\
                          dget (llayout l) b = option_map CText (dget (nth i ls []) b)
              | None => 6 <= i
              end.
Proof.
  intros E Ho Hi. destruct (C63_shape _ _ _ _ E) as [Hl Hs].
  assert (EL : glayers (generic_deserialize (klc_data ls)) =
    map (fun il => mkLayer (map frozenset (nth (fst il) layerSwitches [])) (map (fun kv => (fst kv, CText (snd kv))) (snd il))) (enumerate ls)).
  { unfold generic_deserialize, klc_data. cbn [glayers gd_layout]. rewrite map_map. reflexivity. }
  assert (Hd : forall (l : list (string * text)) b, dget (map (fun kv => (fst kv, CText (snd kv))) l) b = option_map CText (dget l b)).
  { induction l as [|[k v] l IH]; intros b; cbn; [reflexivity|]. destruct (String.eqb b k); [reflexivity|apply IH]. }
  split.
  - apply specialize_ok; [exact Ho| |].
    + rewrite EL. apply Forall_forall. intros l Hin. apply in_map_iff in Hin as ([i d] & <- & Hin). cbn.
      apply in_combine_r in Hin. rewrite Forall_forall in Hs. destruct (Hs d Hin) as [Hw _].
      unfold dict_wf, dkeys in *. rewrite map_map. exact Hw.
    + rewrite EL. intros x Hx. apply Hi. unfold mentioned in Hx. apply in_flat_map in Hx as (l & Hin & Hx).
      apply in_map_iff in Hin as ([i d] & <- & Hin). cbn [lmods llayout fst snd] in Hx. apply in_app_iff in Hx as [Hx|Hx]; apply in_app_iff.
      * right. apply in_flat_map in Hx as (m & Hm & Hx). apply in_map_iff in Hm as (m0 & <- & Hm0).
        cbn [elems frozenset] in Hx. apply (proj1 (ssort_In x m0)) in Hx. apply in_concat. exists m0. split; [|exact Hx].
        destruct (Nat.lt_ge_cases i (List.length layerSwitches)) as [L|L]; [|rewrite nth_overflow in Hm0 by exact L; destruct Hm0].
        apply in_concat. exists (nth i layerSwitches []). split; [apply nth_In, L|exact Hm0].
      * left. rewrite map_map in Hx. apply in_map_iff in Hx as ([k v] & <- & Hk).
        apply in_combine_r in Hin. rewrite Forall_forall in Hs. destruct (Hs d Hin) as [_ Hc]. rewrite Forall_forall in Hc.
        destruct (Hc _ Hk) as [[vk Hvk] _]. apply (in_map snd) in Hvk. exact Hvk.
  - intros i b. rewrite EL, nth_error_map. unfold enumerate.
    destruct (Nat.lt_ge_cases i 6) as [L|L].
    + assert (En : nth_error (combine (seq 0 (List.length ls)) ls) i = Some (i, nth i ls [])).
      { rewrite Hl. clear - Hl L. do 7 (destruct ls as [|? ls]; try discriminate).
        do 6 (destruct i as [|i]; [reflexivity|]). lia. }
      rewrite En. cbn. split; [reflexivity|]. apply Hd.
    + assert (En : nth_error (combine (seq 0 (List.length ls)) ls) i = None).
      { apply nth_error_None. rewrite combine_length, seq_length. lia. }
      rewrite En. cbn. exact L.
Qed.
(** No imported layout can be used with the keyboard lulua ships: the modifier
    [Er_altgr] is called [Fr_altgr] there. *)
Theorem C65_never_fits : forall int16 nfd file ls ord,
  fromKlc int16 nfd file = Ok ls -> (forall s, Permutation (ord s) (elems s)) ->
  specialize ord (kb_names ibmpc105) (generic_deserialize (klc_data ls)) = Raise KeyError.
Proof.
  intros int16 nfd file ls ord E Ho. destruct (C63_shape _ _ _ _ E) as [Hl _].
  do 7 (destruct ls as [|? ls]; try discriminate Hl).
  apply specialize_error; [exact Ho|]. intros Hi. specialize (Hi "Er_altgr").
  apply (proj1 (mem_nIn "Er_altgr" (kb_names ibmpc105))); [vm_compute; reflexivity|]. apply Hi.
  - unfold mentioned. apply in_flat_map.
    exists (mkLayer [frozenset ["Er_altgr"]] (map (fun kv => (fst kv, CText (snd kv))) l3)). split.
    + right; right; right; right; left. reflexivity.
    + left. reflexivity.
Qed.
Theorem C65_specialize_refuted : exists int16 nfd file ls ord, (forall s, Permutation (ord s) (elems s)) /\
  fromKlc int16 nfd file = Ok ls /\ Forall (fun l => l = []) (skipn 2 ls) /\
  specialize ord (kb_names ibmpc105) (generic_deserialize (klc_data ls)) = Raise KeyError.
Proof.
  exists hexint, (fun t => t), klc_example, [[("Cl1", [113%N]); ("Cl3", [69%N])]; [("Cl1", [81%N]); ("Cl2", [87%N]); ("Cl3", [70%N])]; []; []; []; []], elems.
  split; [reflexivity|]. split; [exact C62_example_result|]. split; [repeat constructor|].
  apply (C65_never_fits hexint (fun t => t) klc_example); [exact C62_example_result|reflexivity].
Qed.
(** The files concerned exist, and not only for the want of that button: with
    the modifier renamed a file using OEM_5 still does not fit. *)
Example C65_example :
  match klc_try "2b OEM_5 0 005c 007c" with
  | Ok ls => dget (nth 0 ls []) "Cr0" = Some [92%N] /\ dget (nth 1 ls []) "Cr0" = Some [124%N]
  | Raise _ => False
  end /\ mem "Cr0" (kb_names ibmpc105) = false /\ mem "Er_altgr" (kb_names ibmpc105) = false
  /\ forallb (fun b => mem b (kb_names ibmpc105) || mem b ["Cr0"]) (map snd vkToButton) = true
  /\ forallb (fun b => mem b (kb_names ibmpc105) || mem b ["Er_altgr"]) (concat (concat layerSwitches)) = true.
Proof. vm_compute. repeat split. Qed.

Print Assumptions C62_import.
Print Assumptions C63_succeeds.
Print Assumptions C63_errors.
Print Assumptions C63_shape.
Print Assumptions C64_comments_partial.
Print Assumptions C64_comments_refuted.
Print Assumptions C65_specialize_partial.
Print Assumptions C65_never_fits.
Print Assumptions C65_specialize_refuted.
