(** Lexing of the pieces of the C source. *)
From Coq Require Import Ascii.
From Verif Require Import Base LayoutModel DataWinkbd DataCsrc WinkbdModel KlcModel CsrcModel CsrcSpec.
Open Scope string_scope.
Open Scope list_scope.

(** * Text and names *)
Lemma ascii_N_lt (a : ascii) : (N_of_ascii a < 256)%N.
Proof. destruct a as [[] [] [] [] [] [] [] []]; vm_compute; reflexivity. Qed.
Lemma ascii_text_lit s : ascii_text (lit s) = s.
Proof.
  unfold ascii_text, lit. rewrite map_map. rewrite (map_ext _ (fun x => x)) by (intros a; apply ascii_N_embedding).
  rewrite map_id. apply string_of_list_ascii_of_string.
Qed.
Lemma text_of_lit s : text_of s = lit s.
Proof. reflexivity. Qed.
Lemma lit_app a b : lit (a ++ b)%string = lit a ++ lit b.
Proof. unfold lit. induction a as [|c a IH]; [reflexivity|]. cbn. f_equal. exact IH. Qed.
Lemma text_of_ascii_text t : Forall (fun c => (c < 256)%N) t -> text_of (ascii_text t) = t.
Proof.
  intros H. unfold text_of, ascii_text. rewrite list_ascii_of_string_of_list_ascii, map_map.
  induction H as [|c t Hc _ IH]; [reflexivity|]. cbn [map]. rewrite N_ascii_embedding by exact Hc. f_equal. exact IH.
Qed.

(** * Lexer states *)
Lemma lex_app s a b : lex s (a ++ b) = (fst (lex s a) ++ fst (lex (snd (lex s a)) b), snd (lex (snd (lex s a)) b)).
Proof.
  revert s. induction a as [|c a IH]; intros s; cbn [app lex]; [cbn [fst snd app]; destruct (lex s b); reflexivity|].
  destruct (lstep s c) as [ts s']. rewrite IH. destruct (lex s' a) as [ts' s'']. cbn [fst snd]. rewrite app_assoc. reflexivity.
Qed.
Lemma lex_trans s s1 s2 a b x y : lex s a = (x, s1) -> lex s1 b = (y, s2) -> lex s (a ++ b) = (x ++ y, s2).
Proof. intros A B. rewrite lex_app, A. cbn [fst snd]. rewrite B. reflexivity. Qed.

(** Names *)
Definition namedb (t : text) : bool := match t with [] => false | c :: t' => name_start c && forallb name_char t' end.
Lemma lex_name_more t : forall acc, forallb name_char t = true -> lex (SId acc) t = ([], SId (rev t ++ acc)).
Proof.
  induction t as [|c t IH]; intros acc H; [reflexivity|]. cbn [forallb] in H. apply andb_true_iff in H as [Hc Ht].
  cbn [lex lstep]. rewrite Hc. rewrite IH by exact Ht. cbn [rev app]. rewrite <- app_assoc. reflexivity.
Qed.
Lemma lex_name t : namedb t = true -> lex S0 t = ([], SId (rev t)).
Proof.
  destruct t as [|c t]; [discriminate|]. cbn [namedb]. intros H. apply andb_true_iff in H as [Hc Ht].
  cbn [lex lstep]. unfold start. rewrite Hc, lex_name_more by exact Ht. reflexivity.
Qed.
Lemma name_tok_lit s : name_tok (rev (lit s)) = TId s.
Proof. unfold name_tok. rewrite rev_involutive, ascii_text_lit. reflexivity. Qed.
Lemma name_tok_rev t : name_tok (rev t) = TId (ascii_text t).
Proof. unfold name_tok. rewrite rev_involutive. reflexivity. Qed.

(** Numbers *)
Definition numb (t : text) : bool := match t with [] => false | c :: t' => is_dec c && forallb name_char t' end.
Lemma dec_not_name c : is_dec c = true -> name_start c = false.
Proof.
  unfold is_dec, name_start, is_lower, is_upper. rewrite andb_true_iff, !N.leb_le. intros [A B].
  rewrite !orb_false_iff, !andb_false_iff, !N.leb_gt, N.eqb_neq. lia.
Qed.
Lemma lex_num_more t : forall acc, forallb name_char t = true -> lex (SNum acc) t = ([], SNum (rev t ++ acc)).
Proof.
  induction t as [|c t IH]; intros acc H; [reflexivity|]. cbn [forallb] in H. apply andb_true_iff in H as [Hc Ht].
  cbn [lex lstep]. rewrite Hc. cbn [orb]. rewrite IH by exact Ht. cbn [rev app]. rewrite <- app_assoc. reflexivity.
Qed.
Lemma lex_num t : numb t = true -> lex S0 t = ([], SNum (rev t)).
Proof.
  destruct t as [|c t]; [discriminate|]. cbn [numb]. intros H. apply andb_true_iff in H as [Hc Ht].
  cbn [lex lstep]. unfold start. rewrite (dec_not_name _ Hc), Hc, lex_num_more by exact Ht. reflexivity.
Qed.

(** * Digits *)
Definition digb (b : N) : N -> option N := if (b =? 10)%N then dec_digit else hex_digit.
Lemma digb_digit b up d : (b = 10 \/ b = 16)%N -> (d < b)%N -> digb b (digit up d) = Some d.
Proof.
  intros [-> | ->] Hd; unfold digb, digit.
  - assert (E : (d <? 10)%N = true) by (apply N.ltb_lt; exact Hd). rewrite E. change (if (10 =? 10)%N then dec_digit else hex_digit) with dec_digit. unfold dec_digit, is_dec.
    assert (A : (48 <=? 48 + d)%N && (48 + d <=? 57)%N = true) by (rewrite andb_true_iff, !N.leb_le; lia). rewrite A. f_equal. lia.
  - change (if (16 =? 10)%N then dec_digit else hex_digit) with hex_digit. unfold hex_digit, is_dec.
    destruct (d <? 10)%N eqn:E.
    + apply N.ltb_lt in E. assert (A : (48 <=? 48 + d)%N && (48 + d <=? 57)%N = true) by (rewrite andb_true_iff, !N.leb_le; lia).
      rewrite A. f_equal. lia.
    + apply N.ltb_ge in E. destruct up.
      * assert (A : (48 <=? 55 + d)%N && (55 + d <=? 57)%N = false) by (rewrite andb_false_iff, !N.leb_gt; lia). rewrite A.
        assert (C : (65 <=? 55 + d)%N && (55 + d <=? 70)%N = true) by (rewrite andb_true_iff, !N.leb_le; lia). rewrite C. f_equal. lia.
      * assert (A : (48 <=? 87 + d)%N && (87 + d <=? 57)%N = false) by (rewrite andb_false_iff, !N.leb_gt; lia). rewrite A.
        assert (C : (65 <=? 87 + d)%N && (87 + d <=? 70)%N = false) by (rewrite andb_false_iff, !N.leb_gt; lia). rewrite C.
        assert (D : (97 <=? 87 + d)%N && (87 + d <=? 102)%N = true) by (rewrite andb_true_iff, !N.leb_le; lia). rewrite D. f_equal. lia.
Qed.
Lemma read_digits_num b up fuel : (b = 10 \/ b = 16)%N -> forall n acc, (n < b ^ N.of_nat fuel)%N -> 0 < fuel ->
  read_digits b (digb b) 0 (digits fuel b up n acc) = read_digits b (digb b) n acc.
Proof.
  intros Hb. induction fuel as [|f IH]; intros n acc Hn Hf; [lia|]. cbn [digits].
  assert (B0 : b <> 0%N) by lia. pose proof (N.mod_lt n b B0) as Hm. pose proof (N.div_mod n b B0) as Hd.
  assert (S : forall a, read_digits b (digb b) a (digit up (n mod b) :: acc) = read_digits b (digb b) (a * b + n mod b) acc).
  { intros a. cbn [read_digits]. rewrite digb_digit by assumption. reflexivity. }
  destruct (n / b =? 0)%N eqn:E.
  - apply N.eqb_eq in E. rewrite S. f_equal. rewrite E in Hd. lia.
  - apply N.eqb_neq in E. destruct f as [|f].
    + exfalso. rewrite N.pow_1_r in Hn. apply E, N.div_small, Hn.
    + rewrite IH; [|apply N.div_lt_upper_bound; [exact B0|]; rewrite <- N.pow_succ_r', <- Nat2N.inj_succ; exact Hn|lia].
      rewrite S. f_equal. lia.
Qed.
Lemma size_bound b n : (b = 10 \/ b = 16)%N -> (n < b ^ N.of_nat (S (N.size_nat n)))%N.
Proof.
  intros Hb. assert (A : (n < 2 ^ N.of_nat (S (N.size_nat n)))%N).
  { destruct n as [|p]; [reflexivity|]. eapply N.lt_le_trans; [apply N.size_gt|].
    apply N.pow_le_mono_r; [lia|]. cbn [N.size N.size_nat]. clear. induction p as [p IH|p IH|]; cbn [Pos.size Pos.size_nat]; lia. }
  eapply N.lt_le_trans; [exact A|]. apply N.pow_le_mono_l. lia.
Qed.
Lemma digits_all fuel b up (P : N -> Prop) : (forall d, (d < b)%N -> P (digit up d)) -> b <> 0%N -> forall n acc, Forall P acc -> Forall P (digits fuel b up n acc).
Proof.
  intros H B0. induction fuel as [|f IH]; intros n acc Ha; [exact Ha|]. cbn [digits].
  assert (Forall P (digit up (n mod b) :: acc)) by (constructor; [apply H, N.mod_lt, B0|exact Ha]).
  destruct (n / b =? 0)%N; [assumption|apply IH; assumption].
Qed.
Lemma digits_nonempty fuel b up n acc : 0 < fuel -> exists c r, digits fuel b up n acc = c :: r.
Proof.
  revert n acc. destruct fuel as [|f]; [lia|]. intros n acc _. cbn [digits]. destruct (n / b =? 0)%N; [eauto|].
  assert (G : forall f n c r, exists c' r', digits f b up n (c :: r) = c' :: r').
  { clear. induction f as [|f IH]; intros n c r; cbn [digits]; [eauto|]. destruct (n / b =? 0)%N; eauto. }
  apply G.
Qed.
Lemma digit_zero up d : (d < 16)%N -> digit up d = 48%N -> d = 0%N.
Proof. unfold digit. intros H. destruct (d <? 10)%N eqn:E; [lia|]. apply N.ltb_ge in E. destruct up; lia. Qed.
(** Numbers other than zero have no leading zero. *)
Lemma digits_leading b up fuel : (b = 10 \/ b = 16)%N -> forall n acc, (n < b ^ N.of_nat fuel)%N -> n <> 0%N ->
  exists c r, digits fuel b up n acc = c :: r /\ c <> 48%N.
Proof.
  intros Hb. induction fuel as [|f IH]; intros n acc Hn H0; [cbn in Hn; lia|]. cbn [digits].
  assert (B0 : b <> 0%N) by lia. destruct (n / b =? 0)%N eqn:E.
  - apply N.eqb_eq in E. eexists. eexists. split; [reflexivity|]. intros C. apply digit_zero in C; [|pose proof (N.mod_lt n b B0); lia].
    pose proof (N.div_mod n b B0). lia.
  - apply N.eqb_neq in E. apply IH; [|exact E]. apply N.div_lt_upper_bound; [exact B0|]. rewrite <- N.pow_succ_r', <- Nat2N.inj_succ. exact Hn.
Qed.

Lemma read_zeros b k t : (b = 10 \/ b = 16)%N -> read_digits b (digb b) 0 (repeat 48%N k ++ t) = read_digits b (digb b) 0 t.
Proof.
  intros Hb. induction k as [|k IH]; [reflexivity|]. cbn [repeat app read_digits].
  replace (digb b 48%N) with (Some 0%N) by (destruct Hb as [-> | ->]; reflexivity). rewrite N.mul_0_l, N.add_0_l. exact IH.
Qed.
Lemma digits_app fuel b up : forall n acc, digits fuel b up n acc = digits fuel b up n [] ++ acc.
Proof.
  induction fuel as [|f IH]; intros n acc; [reflexivity|]. cbn [digits]. destruct (n / b =? 0)%N; [reflexivity|].
  rewrite IH, (IH (n / b)%N [_]), <- app_assoc. reflexivity.
Qed.
Lemma read_num b up w n rest : (b = 10 \/ b = 16)%N ->
  read_digits b (digb b) 0 (padded w (num b up n) ++ rest) = read_digits b (digb b) n rest.
Proof.
  intros Hb. unfold padded. rewrite <- app_assoc, read_zeros by exact Hb. unfold num. rewrite <- digits_app.
  apply read_digits_num; [exact Hb|apply size_bound, Hb|lia].
Qed.
Lemma padded_all (P : N -> Prop) w t : P 48%N -> Forall P t -> Forall P (padded w t).
Proof. intros P0 H. unfold padded. apply Forall_app. split; [|exact H]. apply Forall_forall. intros x Hx. apply repeat_spec in Hx. congruence. Qed.
Lemma num_all (P : N -> Prop) b up n : (forall d, (d < b)%N -> P (digit up d)) -> b <> 0%N -> Forall P (num b up n).
Proof. intros H B0. apply digits_all; [exact H|exact B0|constructor]. Qed.
Lemma digit_name up d : (d < 16)%N -> name_char (digit up d) = true.
Proof.
  intros H. unfold name_char, name_start, is_lower, is_upper, is_dec, digit.
  destruct (d <? 10)%N eqn:E; [apply N.ltb_lt in E|apply N.ltb_ge in E; destruct up]; rewrite ?orb_true_iff, ?andb_true_iff, ?N.leb_le, ?N.eqb_eq; lia.
Qed.
Lemma hexu_names w n : forallb name_char (hexu w n) = true.
Proof. apply forallb_forall, Forall_forall, padded_all; [reflexivity|]. apply num_all; [intros d Hd; apply digit_name, Hd|discriminate]. Qed.
Lemma hexl_names w n : forallb name_char (hexl w n) = true.
Proof. apply forallb_forall, Forall_forall, padded_all; [reflexivity|]. apply num_all; [intros d Hd; apply digit_name, Hd|discriminate]. Qed.
Lemma hexd b up n w : b = 16%N -> Forall (fun c => hex_digit c <> None) (padded w (num b up n)).
Proof.
  intros ->. apply padded_all; [discriminate|]. apply num_all; [|discriminate]. intros d Hd.
  change hex_digit with (digb 16). rewrite digb_digit by auto. discriminate.
Qed.
Lemma padded_nonempty w b up n : exists c r, padded w (num b up n) = c :: r.
Proof.
  unfold padded, num. destruct (w - _) as [|k]; cbn [repeat app]; [apply digits_nonempty; lia|eauto].
Qed.
(** Hexadecimal constants with a suffix [u] or without *)
Lemma read_hex up w n (u : bool) : read_number (lit "0x" ++ padded w (num 16 up n) ++ (if u then lit "u" else [])) = Some n.
Proof.
  pose proof (hexd 16 up n w eq_refl) as F. pose proof (read_num 16 up w n (if u then lit "u" else []) (or_intror eq_refl)) as R.
  destruct (padded_nonempty w 16 up n) as (c & r & E). rewrite E in *. apply Forall_inv in F. cbn [app] in *.
  change (lit "0x") with [48%N; 120%N]. cbn [app]. unfold read_number. cbn [N.eqb Pos.eqb orb].
  destruct (hex_digit c) as [x|] eqn:Ec; [|contradiction]. unfold digb in R. cbn [N.eqb Pos.eqb] in R. rewrite R.
  destruct u; reflexivity.
Qed.
Lemma read_dec n : read_number (dec n) = Some n.
Proof.
  destruct (N.eq_dec n 0) as [->|H0]; [reflexivity|].
  pose proof (read_num 10 false 0 n [] (or_introl eq_refl)) as R. unfold padded in R. cbn [Nat.sub repeat app] in R. rewrite app_nil_r in R.
  unfold dec in *. destruct (digits_leading 10 false (S (N.size_nat n)) (or_introl eq_refl) n [] (size_bound 10 n (or_introl eq_refl)) H0) as (c & r & E & Hc).
  fold (num 10 false n) in E. rewrite E in *. unfold read_number. destruct (c =? 48)%N eqn:Ec; [apply N.eqb_eq in Ec; contradiction|]. exact R.
Qed.
Lemma dec_digits n : Forall (fun c => is_dec c = true) (dec n).
Proof.
  apply num_all; [|discriminate]. intros d Hd. unfold is_dec, digit. assert (E : (d <? 10)%N = true) by (apply N.ltb_lt; exact Hd). rewrite E.
  rewrite andb_true_iff, !N.leb_le. lia.
Qed.
Lemma dec_numb n : numb (dec n) = true.
Proof.
  pose proof (dec_digits n) as F. destruct (digits_nonempty (S (N.size_nat n)) 10 false n []) as (c & r & E); [lia|].
  fold (num 10 false n) in E. fold (dec n) in E. rewrite E in *. inversion F; subst. cbn [numb]. rewrite H1. cbn [andb].
  apply forallb_forall. rewrite Forall_forall in H2. intros x Hx. unfold name_char. rewrite (H2 x Hx). apply orb_true_r.
Qed.
Lemma dec_names n : forallb name_char (dec n) = true.
Proof. apply forallb_forall. pose proof (dec_digits n) as F. rewrite Forall_forall in F. intros x Hx. unfold name_char. rewrite (F x Hx). apply orb_true_r. Qed.
Lemma hex_numb up w n (u : bool) : numb (lit "0x" ++ padded w (num 16 up n) ++ (if u then lit "u" else [])) = true.
Proof.
  change (lit "0x") with [48%N; 120%N]. cbn [app numb]. cbn [is_dec N.leb N.compare Pos.compare Pos.compare_cont andb].
  cbn [forallb]. assert (A : forallb name_char (padded w (num 16 up n)) = true).
  { apply forallb_forall, Forall_forall, padded_all; [reflexivity|]. apply num_all; [intros d Hd; apply digit_name, Hd|discriminate]. }
  rewrite forallb_app, A. destruct u; reflexivity.
Qed.
Lemma lex_hex up w n (u : bool) : lex S0 (lit "0x" ++ padded w (num 16 up n) ++ (if u then lit "u" else [])) =
  ([], SNum (rev (lit "0x" ++ padded w (num 16 up n) ++ (if u then lit "u" else [])))).
Proof. apply lex_num, hex_numb. Qed.
Lemma num_tok_hex up w n (u : bool) : num_tok (rev (lit "0x" ++ padded w (num 16 up n) ++ (if u then lit "u" else []))) = TNum n.
Proof. unfold num_tok. rewrite rev_involutive, read_hex. reflexivity. Qed.
Lemma num_tok_dec n : num_tok (rev (dec n)) = TNum n.
Proof. unfold num_tok. rewrite rev_involutive, read_dec. reflexivity. Qed.

(** * Comments *)
(** Text that may stand in a comment: no star, slash or backslash *)
Definition harmless (c : N) : bool := negb (mem c [42; 47; 92]%N).
Lemma lex_comment t : forallb harmless t = true -> lex SCom t = ([], SCom).
Proof.
  induction t as [|c t IH]; intros H; [reflexivity|]. cbn [forallb] in H. apply andb_true_iff in H as [Hc Ht].
  cbn [lex lstep]. unfold harmless, mem in Hc. cbn [existsb] in Hc. unfold comment.
  rewrite negb_true_iff, !orb_false_iff in Hc. destruct Hc as (A & C & D & _). unfold eqb in A, C, D. cbn in A, C, D.
  destruct (c =? 42)%N eqn:E1; [apply N.eqb_eq in E1; subst; discriminate|].
  destruct (c =? 47)%N eqn:E2; [apply N.eqb_eq in E2; subst; discriminate|].
  destruct (c =? 92)%N eqn:E3; [apply N.eqb_eq in E3; subst; discriminate|].
  rewrite IH by exact Ht. reflexivity.
Qed.
Lemma name_harmless c : name_char c = true -> harmless c = true.
Proof.
  intros H. unfold harmless. destruct (mem c [42; 47; 92]%N) eqn:E; [|reflexivity]. apply mem_In in E.
  destruct E as [<-|[<-|[<-|[]]]]; vm_compute in H; discriminate.
Qed.
Lemma names_harmless t : forallb name_char t = true -> forallb harmless t = true.
Proof. rewrite !forallb_forall. intros H x Hx. apply name_harmless, H, Hx. Qed.
(** A character as it is written in a comment: the comment ends where it should,
    contains no start of a comment and no backslash at the end of a line. *)
Lemma lex_repr printable c : lex S0 (lit "/*" ++ repr1 printable c ++ lit "*/") = ([], S0).
Proof.
  change (lit "/*") with [47; 42]%N. change (lit "*/") with [42; 47]%N. unfold repr1.
  destruct (c =? 39)%N eqn:E39; [apply N.eqb_eq in E39; subst c; reflexivity|].
  assert (P : forall x, lex SCom (x ++ [39%N]) = ([], SCom) -> lex S0 ([47; 42]%N ++ ([39%N] ++ x ++ [39%N]) ++ [42; 47]%N) = ([], S0)).
  { intros x H. change ([47; 42]%N ++ ([39%N] ++ x ++ [39%N]) ++ [42; 47]%N) with (([47; 42; 39]%N ++ (x ++ [39%N]) ++ [42; 47]%N)).
    apply (lex_trans S0 SCom S0 _ _ [] []); [reflexivity|]. apply (lex_trans SCom SCom S0 _ _ [] []); [exact H|reflexivity]. }
  assert (Q : forall d x, (d = 120 \/ d = 117 \/ d = 85)%N -> forallb name_char x = true -> lex SCom (([92%N; d] ++ x) ++ [39%N]) = ([], SCom)).
  { intros d x Hd Hx. rewrite <- app_assoc. apply (lex_trans SCom SCom SCom _ _ [] []); [destruct Hd as [->|[->| ->]]; reflexivity|].
    apply (lex_trans SCom SCom SCom _ _ [] []); [apply lex_comment, names_harmless, Hx|reflexivity]. }
  assert (R : lex SCom ([c] ++ [39%N]) = ([], SCom)).
  { cbn [app lex lstep]. unfold comment. destruct (c =? 42)%N; [reflexivity|]. destruct (c =? 47)%N; [reflexivity|]. destruct (c =? 92)%N; reflexivity. }
  apply P. unfold escaped. destruct (c =? 92)%N; [reflexivity|]. destruct (c =? 9)%N; [reflexivity|]. destruct (c =? 10)%N; [reflexivity|].
  destruct (c =? 13)%N; [reflexivity|]. destruct ((c <? 32)%N || (c =? 127)%N); [apply Q; [auto|apply hexl_names]|].
  destruct (c <? 127)%N; [exact R|]. destruct (printable c); [exact R|].
  destruct (c <? 256)%N; [apply Q; [auto|apply hexl_names]|]. destruct (c <? 65536)%N; apply Q; auto using hexl_names.
Qed.
