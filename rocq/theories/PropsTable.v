(** Tables of corpora on the report page. *)
From Coq Require Import Ascii Lia.
From Verif Require Import Base LayoutModel TextModel PlotModel PlotSpec PlotProofs ReportModel PropsReport KlcModel CsrcModel TableModel FilesSpec FilesProofs TableSpec TableProofs.
Open Scope string_scope.
Open Scope list_scope.
Unset Implicit Arguments.

(** * C104 *)
Lemma dict_of a : forall b, text_le a b = true -> dict_le a b.
Proof.
  induction a as [|x a IH]; intros [|y b]; cbn [text_le]; try discriminate; try (intros _; apply dl_end). intros H. apply orb_true_iff in H as [H|H].
  - apply dl_less, N.ltb_lt, H.
  - apply andb_prop in H as [H1 H2]. apply N.eqb_eq in H1 as ->. apply dl_same, IH, H2.
Qed.
Lemma text_le_eq a : forall b, text_le a b && text_le b a = eqb a b.
Proof.
  intros b. destruct (eqb_spec a b) as [-> |Ne].
  - assert (H : text_le b b = true) by (induction b as [|x b IH]; cbn; [reflexivity|rewrite N.eqb_refl, IH; apply orb_true_r]). rewrite H. reflexivity.
  - apply not_true_iff_false. intros H. apply andb_prop in H as [H1 H2]. apply Ne. clear Ne. revert b H1 H2.
    induction a as [|x a IH]; intros [|y b]; cbn [text_le]; try discriminate; try reflexivity. intros H1 H2.
    apply orb_true_iff in H1, H2. rewrite !andb_true_iff, !N.ltb_lt, !N.eqb_eq in *. assert (x = y) by lia. subst y. f_equal. apply IH; [destruct H1 as [H1|H1]|destruct H2 as [H2|H2]]; try lia; tauto.
Qed.
(** The order of rows: all corpora, by name in lower case, those of the same name as given. *)
Definition in_order (lower : text -> text) (cs order : list cdoc) : Prop :=
  Permutation order cs /\ StronglySorted (fun a b => dict_le (lower (c_en a)) (lower (c_en b))) order /\
  forall n, filter (fun c => eqb (lower (c_en c)) n) order = filter (fun c => eqb (lower (c_en c)) n) cs.
Lemma order_ok lower cs : in_order lower cs (sortedCorpora lower cs).
Proof.
  destruct (sortedCorpora_ok lower cs) as (P & S & T). split; [exact P|]. split.
  - clear P T. induction S as [|c l S IH F]; constructor; [exact IH|]. eapply Forall_impl; [|exact F]. intros b. apply dict_of.
  - intros n. assert (D : (exists x, In x cs /\ lower (c_en x) = n) \/ forall x, In x cs -> eqb (lower (c_en x)) n = false).
    { clear. induction cs as [|c cs IH]; [right; intros x []|]. destruct (eqb_spec (lower (c_en c)) n) as [E|E]; [left; exists c; split; [left; reflexivity|exact E]|].
      destruct IH as [(x & I & Ex)|IH]; [left; exists x; split; [right; exact I|exact Ex]|]. right. intros x [<-|I]; [|apply IH, I]. destruct (eqb_spec (lower (c_en c)) n); congruence. }
    destruct D as [(x & _ & <-)|D].
    + specialize (T x). assert (Q : forall y, text_le (lower (c_en x)) (lower (c_en y)) && text_le (lower (c_en y)) (lower (c_en x)) = eqb (lower (c_en y)) (lower (c_en x))) by (intros y; rewrite andb_comm; apply text_le_eq).
      rewrite !(filter_ext _ _ Q) in T. exact T.
    + assert (Z : forall l, (forall x, In x l -> eqb (lower (c_en x)) n = false) -> filter (fun c => eqb (lower (c_en c)) n) l = []).
      { induction l as [|c l IH]; intros H; [reflexivity|]. cbn [filter]. rewrite (H c) by (left; reflexivity). apply IH. intros x I. apply H. right. exact I. }
      rewrite !Z; [reflexivity|exact D|]. intros x I. apply D. eapply Permutation_in; [exact P|exact I].
Qed.
Definition words_of (cs : list cdoc) : N := fold_right (fun c n => (fst (c_stats c) + n)%N) 0%N cs.
Definition characters_of (cs : list cdoc) : N := fold_right (fun c n => (snd (c_stats c) + n)%N) 0%N cs.
Lemma sum_words cs : sumN (map (fun c => fst (c_stats c)) cs) = words_of cs.
Proof. induction cs as [|c cs IH]; cbn; [reflexivity|]. unfold sumN, words_of in IH. rewrite IH. reflexivity. Qed.
Lemma sum_characters cs : sumN (map (fun c => snd (c_stats c)) cs) = characters_of cs.
Proof. induction cs as [|c cs IH]; cbn; [reflexivity|]. unfold sumN, characters_of in IH. rewrite IH. reflexivity. Qed.
Lemma tables_sorted lower cs ar : Forall clean cs -> (words_of cs < 10 ^ 27)%N -> (characters_of cs < 10 ^ 27)%N -> exists t rows total,
    tableText lower ar cs = Ok t /\ read_table (if ar then arabic else english) t = Some (rows ++ [total]) /\
    Forall2 (row_of ar) (sortedCorpora lower cs) rows /\ total_of ar (words_of cs) (characters_of cs) total.
Proof.
  intros C B1 B2. destruct (order_ok lower cs) as (P & _ & _). rewrite <- sum_words in *. rewrite <- sum_characters in *.
  destruct (rows_ok ar (sortedCorpora lower cs)) as (ts & css & rs & E & F1 & F2 & F3).
  { eapply Permutation_Forall; [symmetry; exact P|exact C]. }
  { eapply Permutation_Forall; [symmetry; exact P|]. apply Forall_forall. intros c I. split.
    - eapply N.le_lt_trans; [|exact B1]. apply sum_ge. apply (in_map (fun c => fst (c_stats c))), I.
    - eapply N.le_lt_trans; [|exact B2]. apply sum_ge. apply (in_map (fun c => snd (c_stats c))), I. }
  destruct (total_ok ar cs B1 B2) as (t & l & r & E1 & R1 & R2 & R3).
  exists (concat ts ++ t), rs, r. unfold tableText. rewrite E. cbn [bind]. rewrite E1. cbn [bind]. split; [reflexivity|]. split; [|split; [exact F3|exact R3]].
  unfold read_table. replace (concat ts ++ t) with (concat (ts ++ [t])) by (rewrite concat_app; cbn; rewrite app_nil_r; reflexivity).
  rewrite (read_html_ok _ (css ++ [l])) by (apply Forall2_app; [exact F1|constructor; [exact R1|constructor]]). fold (sg ar).
  apply all_of_app; [apply all_of_map, F2|]. cbn [all_of]. rewrite R2. reflexivity.
Qed.
(** Both tables are read as one row for each corpus, in one order, and the totals; the language decides
    on names, kinds, units and signs. *)
Theorem C104_tables lower cs : Forall clean cs -> (words_of cs < 10 ^ 27)%N -> (characters_of cs < 10 ^ 27)%N ->
  exists order, in_order lower cs order /\ forall ar, exists t rows total,
    tableText lower ar cs = Ok t /\ read_table (if ar then arabic else english) t = Some (rows ++ [total]) /\
    Forall2 (row_of ar) order rows /\ total_of ar (words_of cs) (characters_of cs) total.
Proof. intros C B1 B2. exists (sortedCorpora lower cs). split; [apply order_ok|]. intros ar. apply tables_sorted; assumption. Qed.

(** * The corpora of the project, the directories of corpus, metadata.yaml in the order of gen.sh:7, 255-264 *)
Definition shipped (st : nat -> N * N) : list cdoc :=
  [mkCdoc (lit "https://www.aljazeera.net/") (lit "Al-Jazeera") [0x627; 0x644; 0x62C; 0x632; 0x64A; 0x631; 0x629]%N (Some (547110%N, (lit "articles"), [0x645; 0x642; 0x627; 0x644; 0x629]%N)) (st 0);
   mkCdoc (lit "https://ar.wikipedia.org/") (lit "Arabic Wikipedia") [0x648; 0x64A; 0x643; 0x64A; 0x628; 0x64A; 0x62F; 0x64A; 0x627; 32; 0x627; 0x644; 0x639; 0x631; 0x628; 0x64A; 0x629]%N (Some (857386%N, (lit "articles"), [0x645; 0x642; 0x627; 0x644; 0x629]%N)) (st 1);
   mkCdoc (lit "http://www.bbc.com/arabic") (lit "BBC Arabic") [0x628; 0x64A; 32; 0x628; 0x64A; 32; 0x633; 0x64A; 32; 0x627; 0x644; 0x639; 0x631; 0x628; 0x64A; 0x629]%N (Some (149901%N, (lit "articles"), [0x645; 0x642; 0x627; 0x644; 0x629]%N)) (st 2);
   mkCdoc (lit "https://www.hindawi.org/books") (lit "hindawi.org") [0x647; 0x646; 0x62F; 0x627; 0x648; 0x64A]%N (Some (2227%N, (lit "books"), [0x643; 0x62A; 0x627; 0x628]%N)) (st 3);
   mkCdoc (lit "http://opus.nlpl.eu/OpenSubtitles-v2018.php") (lit "ORPUS OpenSubtitles 2018") (lit "ORPUS OpenSubtitles 2018") (Some (94093%N, (lit "movies"), [0x641; 0x64A; 0x644; 0x645]%N)) (st 4);
   mkCdoc (lit "https://planet.openstreetmap.org/") (lit "OpenStreetMap Arabic Labels") [0x62E; 0x631; 0x64A; 0x637; 0x629; 32; 0x627; 0x644; 0x634; 0x627; 0x631; 0x639; 32; 0x627; 0x644; 0x645; 0x641; 0x62A; 0x648; 0x62D; 0x629; 32; 65; 114; 97; 98; 105; 99; 32; 76; 97; 98; 101; 108; 115]%N (Some (376148%N, (lit "labels"), (lit "labels"))) (st 5);
   mkCdoc (lit "http://tanzil.net/docs/download") (lit "tanzil.net Quran") [0x627; 0x644; 0x642; 0x631; 0x622; 0x646; 32; 40; 0x645; 0x646; 32; 116; 97; 110; 122; 105; 108; 46; 110; 101; 116; 41]%N None (st 6);
   mkCdoc (lit "https://conferences.unite.un.org/UNCorpus/en/DownloadOverview") (lit "United Nations Parallel Corpus v1.0") [0x627; 0x644; 0x623; 0x645; 0x645; 32; 0x627; 0x644; 0x645; 0x62A; 0x62D; 0x62F; 0x629; 32; 80; 97; 114; 97; 108; 108; 101; 108; 32; 67; 111; 114; 112; 117; 115; 32; 118; 49; 46; 48]%N (Some (116754%N, (lit "documents"), [0x645; 0x644; 0x641]%N)) (st 7)].
Definition ascii_lower : text -> text := map (fun c => if ((65 <=? c) && (c <=? 90))%N then (c + 32)%N else c).
Definition plainb (t : text) : bool := forallb (fun c => negb (is_lt c) && negb (is_amp c)) t.
Lemma plainb_ok t : plainb t = true -> plain_chars t.
Proof. unfold plainb. rewrite forallb_forall. intros H. split; intros c I; specialize (H c I); apply andb_prop in H as [H1 H2]; apply negb_true_iff; assumption. Qed.
Definition cleanb (c : cdoc) : bool := forallb (fun x => negb (is_dq x)) (c_url c) && plainb (c_en c) && plainb (c_ar c) &&
  match c_count c with Some (_, en, ar) => plainb en && plainb ar | None => true end.
Lemma cleanb_ok c : cleanb c = true -> clean c.
Proof.
  unfold cleanb. intros H. apply andb_prop in H as [H K]. apply andb_prop in H as [H A]. apply andb_prop in H as [U E].
  split; [intros x I; rewrite forallb_forall in U; apply negb_true_iff, U, I|]. split; [apply plainb_ok, E|]. split; [apply plainb_ok, A|].
  destruct (c_count c) as [[[n en] ar]|]; [|trivial]. apply andb_prop in K as [K1 K2]. split; apply plainb_ok; assumption.
Qed.
Lemma shipped_clean st : Forall clean (shipped st).
Proof. apply Forall_forall. intros c I. apply cleanb_ok. revert c I. apply forallb_forall. reflexivity. Qed.
Lemma Forall2_through {A B C} (P : A -> B -> Prop) (Q : B -> C -> Prop) l m n : Forall2 P l m -> Forall2 Q m n -> Forall2 (fun a c => exists b, P a b /\ Q b c) l n.
Proof. intros F. revert n. induction F as [|a b l m H F IH]; intros n G; inversion G; subst; constructor; eauto. Qed.
Theorem C104_shipped st ar : (words_of (shipped st) < 10 ^ 27)%N -> (characters_of (shipped st) < 10 ^ 27)%N ->
  exists t rows total, tableText ascii_lower ar (shipped st) = Ok t /\ read_table (if ar then arabic else english) t = Some (rows ++ [total]) /\
    Forall2 (fun i r => exists c, nth_error (shipped st) i = Some c /\ row_of ar c r) [0; 1; 2; 3; 5; 4; 6; 7] rows /\
    total_of ar (words_of (shipped st)) (characters_of (shipped st)) total.
Proof.
  intros B1 B2. destruct (tables_sorted ascii_lower (shipped st) ar (shipped_clean st) B1 B2) as (t & rows & total & E & R & F & T).
  exists t, rows, total. split; [exact E|]. split; [exact R|]. split; [|exact T].
  assert (S : Forall2 (fun i c => nth_error (shipped st) i = Some c) [0; 1; 2; 3; 5; 4; 6; 7] (sortedCorpora ascii_lower (shipped st))) by (repeat (constructor; [reflexivity|]); constructor).
  exact (Forall2_through _ _ _ _ _ S F).
Qed.
(** 1234567 words and 2227 books *)
Definition one (name : text) : list cdoc := [mkCdoc (lit "http://x") name (lit "y") (Some (2227%N, lit "books", lit "z")) (1234567%N, 5%N)].
Example C104_tables_example : forall ar, exists t, tableText ascii_lower ar (one (lit "A B")) = Ok t /\
  read_table (if ar then arabic else english) t =
    Some [mkRow (Some (lit "http://x")) (lit (if ar then "y" else "A B")) (Some (2227%N, lit (if ar then "z" else "books")))
            (12%N, if ar then [0x645; 0x644; 0x64A; 0x648; 0x646]%N else lit "million") (50%N, []);
          mkRow None (if ar then [0x645; 0x62C; 0x645; 0x648; 0x639]%N else lit "Total") None
            (12%N, if ar then [0x645; 0x644; 0x64A; 0x648; 0x646]%N else lit "million") (50%N, [])].
Proof. intros [|]; eexists; (split; [vm_compute; reflexivity|vm_compute; reflexivity]). Qed.
Example C104_tables_hyp : Forall clean (one (lit "A B")) /\ (words_of (one (lit "A B")) < 10 ^ 27)%N /\ (characters_of (one (lit "A B")) < 10 ^ 27)%N.
Proof. split; [|split; reflexivity]. constructor; [apply cleanb_ok; reflexivity|constructor]. Qed.
Example C104_shipped_example : (words_of (shipped (fun _ => (100000000, 1000000000)%N)) < 10 ^ 27)%N /\ (characters_of (shipped (fun _ => (100000000, 1000000000)%N)) < 10 ^ 27)%N.
Proof. split; reflexivity. Qed.
(** Names are not escaped: ampersands and tags change what is read. *)
Theorem C104_needs_clean : exists t t', tableText ascii_lower false (one (lit "A & B")) = Ok t /\ read_table english t = None /\
  tableText ascii_lower false (one (lit "A&#x41;")) = Ok t' /\ exists r, option_map (map r_name) (read_table english t') = Some (lit "AA" :: r).
Proof. eexists _, _. split; [vm_compute; reflexivity|]. split; [vm_compute; reflexivity|]. split; [vm_compute; reflexivity|]. eexists. vm_compute. reflexivity. Qed.
Print Assumptions C104_tables.
Print Assumptions C104_shipped.
Print Assumptions C104_needs_clean.
