(** Lemmas about the tables of corpora. *)
From Coq Require Import Ascii Lia Wf_nat.
From Verif Require Import Base LayoutModel TextModel PlotModel PlotSpec PlotProofs ReportModel PropsReport KlcModel CsrcModel TableModel FilesSpec FilesProofs TableSpec.
Open Scope string_scope.
Open Scope list_scope.
Unset Implicit Arguments.

(** * Numbers *)
Definition isdigit (c : N) : Prop := (48 <= c <= 57)%N.
(** The filter [f] writes numbers with the signs [s] *)
Record writes (f : N -> N) (s : signs) : Prop := {
  w_digit : forall c, isdigit c -> f c = (s_zero s + (c - 48))%N;
  w_group : f 44%N = s_group s; w_point : f 46%N = s_point s; w_fill : f 32%N = s_fill s;
  w_distinct : forall d, (d <= 9)%N -> ~ In (s_zero s + d)%N [s_group s; s_point s; s_fill s; s_gap s];
  w_other : s_group s <> s_gap s /\ s_point s <> s_gap s }.
Lemma small9 (P : N -> Prop) : P 0%N -> P 1%N -> P 2%N -> P 3%N -> P 4%N -> P 5%N -> P 6%N -> P 7%N -> P 8%N -> P 9%N -> forall d, (d <= 9)%N -> P d.
Proof. intros. assert (E : (d = 0 \/ d = 1 \/ d = 2 \/ d = 3 \/ d = 4 \/ d = 5 \/ d = 6 \/ d = 7 \/ d = 8 \/ d = 9)%N) by lia. repeat destruct E as [->|E]; subst; assumption. Qed.
Lemma isdigit_cases (P : N -> Prop) : (forall d, (d <= 9)%N -> P (48 + d)%N) -> forall c, isdigit c -> P c.
Proof. intros H c C. replace c with (48 + (c - 48))%N by (unfold isdigit in C; lia). apply H. unfold isdigit in C. lia. Qed.
Lemma writes_ar : writes arab1 arabic.
Proof.
  constructor; try reflexivity.
  - apply isdigit_cases. apply small9; reflexivity.
  - apply small9; cbn; intros H; repeat destruct H as [H|H]; (discriminate H || exact H).
  - split; discriminate.
Qed.
Lemma writes_en : writes (fun c => if N.eqb c 32 then 0x2007%N else c) english.
Proof.
  constructor; try reflexivity.
  - intros c C. unfold isdigit in C. cbn [s_zero english]. destruct (N.eqb_spec c 32); lia.
  - apply small9; cbn; intros H; repeat destruct H as [H|H]; (discriminate H || exact H).
  - split; discriminate.
Qed.
Section Numbers.
  Variables (f : N -> N) (s : signs).
  Hypothesis W : writes f s.
  Lemma written c : isdigit c -> exists d, (d <= 9)%N /\ c = (48 + d)%N /\ f c = (s_zero s + d)%N.
  Proof. intros C. exists (c - 48)%N. rewrite (w_digit _ _ W c C). unfold isdigit in C. repeat split; lia. Qed.
  Lemma digits_number t : Forall isdigit t -> forall acc, digits s acc (map f t) = number acc t.
  Proof.
    intros H. induction H as [|c t C H IH]; intros acc; [reflexivity|]. cbn [map digits number]. destruct (written c C) as (d & D & -> & ->). unfold digit.
    replace ((s_zero s <=? s_zero s + d) && (s_zero s + d <=? s_zero s + 9))%N with true by (symmetry; apply andb_true_iff; split; apply N.leb_le; lia).
    replace ((48 <=? 48 + d) && (48 + d <=? 57))%N with true by (symmetry; apply andb_true_iff; split; apply N.leb_le; lia).
    rewrite IH. f_equal. lia.
  Qed.
  Lemma not_sign c x : isdigit c -> In x [s_group s; s_point s; s_fill s; s_gap s] -> (f c =? x)%N = false.
  Proof. intros C I. destruct (written c C) as (d & D & _ & ->). apply N.eqb_neq. intros <-. exact (w_distinct _ _ W d D I). Qed.
  Lemma free_digits x t : Forall isdigit t -> In x [s_group s; s_point s; s_fill s; s_gap s] -> free (fun c => c =? x)%N (map f t).
  Proof. intros H I c J. apply in_map_iff in J as (e & <- & J). rewrite Forall_forall in H. apply not_sign; [apply H, J|exact I]. Qed.

  (** Groups of digits *)
  Definition sepd (g : text) (gs : list text) : text := g ++ flat_map (fun x => 44%N :: x) gs.
  Lemma commas_groups : forall l, l <> [] -> exists g gs, rev (commas l) = sepd g gs /\ rev l = g ++ concat gs /\ 1 <= List.length g <= 3 /\ Forall (fun x => List.length x = 3) gs.
  Proof.
    intros l. remember (List.length l) as n eqn:En. revert l En. induction n as [n IH] using lt_wf_ind. intros [|a [|b [|c [|d r]]]] En N; [congruence| | | |].
    - exists [a], []. repeat split; cbn; auto.
    - exists [b; a], []. repeat split; cbn; auto.
    - exists [c; b; a], []. repeat split; cbn; auto.
    - destruct (IH (List.length (d :: r))) with (l := d :: r) as (g & gs & E1 & E2 & L & F); [subst n; cbn; lia|reflexivity|discriminate|]. exists g, (gs ++ [[c; b; a]]).
      change (commas (a :: b :: c :: d :: r)) with ([a; b; c; 44%N] ++ commas (d :: r)). change (a :: b :: c :: d :: r) with ([a; b; c] ++ d :: r).
      rewrite !rev_app_distr, E1, E2. unfold sepd. rewrite flat_map_app, concat_app, <- !app_assoc. repeat split; try reflexivity; try apply L.
      apply Forall_app. split; [exact F|repeat constructor].
  Qed.
  Lemma split_groups g gs : free (fun c => c =? s_group s)%N (map f g) -> Forall (fun x => free (fun c => c =? s_group s)%N (map f x)) gs ->
    forall k, List.length (map f (sepd g gs)) < k -> split k (fun c => c =? s_group s)%N (map f (sepd g gs)) = map f g :: map (map f) gs.
  Proof.
    intros Fg Fs. revert g Fg. induction Fs as [|x gs Fx Fs IH]; intros g Fg k L; unfold sepd in *; cbn [flat_map] in *.
    - rewrite app_nil_r in *. rewrite (split_fuel _ k (S (List.length (map f g)))) by lia. rewrite split_none by exact Fg. reflexivity.
    - rewrite map_app in *. cbn [app map] in *. rewrite (w_group _ _ W) in *. rewrite (split_fuel _ k (S (List.length (map f g ++ s_group s :: map f (x ++ flat_map (fun x => 44%N :: x) gs))))) by lia.
      rewrite split_at by (exact Fg || apply N.eqb_refl). rewrite (IH x Fx) by lia. reflexivity.
  Qed.
  Lemma grouped_written n : grouped s (map f (rev (commas (rev (dec n))))) = Some n.
  Proof.
    assert (D : Forall isdigit (dec n)) by (apply Forall_forall; intros c I; apply (dec_digit n c I)).
    destruct (commas_groups (rev (dec n))) as (g & gs & E1 & E2 & L & F3).
    { intros E. apply (f_equal (@rev N)) in E. rewrite rev_involutive in E. exact (dec_nonempty n E). }
    rewrite rev_involutive in E2. rewrite E1. unfold grouped. assert (Dg : Forall isdigit g /\ Forall isdigit (concat gs)) by (rewrite E2 in D; apply Forall_app in D; exact D). destruct Dg as [Dg Ds].
    rewrite split_groups; [| | |lia].
    - rewrite !map_length. destruct (Nat.leb_spec 1 (List.length g)); [|lia]. destruct (Nat.leb_spec (List.length g) 3); [|lia]. cbn [andb].
      assert (T : forallb three (map (map f) gs) = true).
      { apply forallb_forall. intros x I. apply in_map_iff in I as (y & <- & I). rewrite Forall_forall in F3. unfold three. rewrite map_length, (F3 y I). reflexivity. }
      rewrite T, <- concat_map, <- map_app, <- E2, digits_number by exact D. apply dec_number.
    - apply free_digits; [exact Dg|cbn; auto].
    - apply Forall_forall. intros x I. apply free_digits; [|cbn; auto]. apply Forall_forall. intros c J. rewrite Forall_forall in Ds. apply Ds. apply in_concat. eauto.
  Qed.
  Lemma tenths_written r : tenths s (map f (dec (r / 10) ++ lit "." ++ dec (r mod 10))) = Some r.
  Proof.
    assert (D : forall n, Forall isdigit (dec n)) by (intros n; apply Forall_forall; intros c I; apply (dec_digit n c I)).
    unfold tenths. rewrite map_app. change (lit "." ++ dec (r mod 10)) with (46%N :: dec (r mod 10)). cbn [map]. rewrite (w_point _ _ W).
    rewrite cut_at; [|apply free_digits; [apply D|cbn; auto]|apply N.eqb_refl].
    assert (R : (r mod 10 < 10)%N) by (apply N.mod_lt; discriminate).
    assert (One : dec (r mod 10) = [48 + r mod 10]%N) by (generalize dependent (r mod 10)%N; intros d Rd; assert (Hd : (d <= 9)%N) by lia; revert d Hd Rd; apply (small9 (fun d => (d < 10)%N -> dec d = [48 + d]%N)); intros _; reflexivity).
    rewrite One. cbn [map]. pose proof (dec_nonempty (r / 10)) as Ne. destruct (map f (dec (r / 10))) as [|x t] eqn:E; [apply map_eq_nil in E; congruence|]. rewrite <- E.
    change [f (48 + r mod 10)%N] with (map f [48 + r mod 10]%N). rewrite <- map_app, digits_number.
    - rewrite number_app, dec_number. cbn [number]. replace ((48 <=? 48 + r mod 10) && (48 + r mod 10 <=? 57))%N with true by (symmetry; apply andb_true_iff; split; apply N.leb_le; lia).
      f_equal. replace (48 + r mod 10 - 48)%N with (r mod 10)%N by lia. symmetry. apply N.div_mod. discriminate.
    - apply Forall_app. split; [apply D|]. constructor; [unfold isdigit; lia|constructor].
  Qed.
  (** Filled up, with a unit *)
  Lemma unfill_padl w c t r : f c <> s_fill s -> unfill s (map f (padl w (c :: t)) ++ r) = map f (c :: t) ++ r.
  Proof.
    intros C. unfold padl. rewrite map_app. generalize (w - List.length (c :: t))%nat. induction n as [|n IH]; cbn [repeat map app unfill].
    - apply N.eqb_neq in C. rewrite C. reflexivity.
    - rewrite (w_fill _ _ W), N.eqb_refl. exact IH.
  Qed.
  Lemma amount_written w t u num n : (exists c t', t = c :: t' /\ isdigit c) -> free (fun c => c =? s_gap s)%N (map f t) -> num s (map f t) = Some n ->
    amount_of s num (map f (padl w t) ++ s_gap s :: u) = Some (n, u).
  Proof.
    intros (c & t' & -> & C) F E. unfold amount_of. rewrite unfill_padl; [|apply N.eqb_neq, not_sign; [exact C|cbn; auto]].
    rewrite cut_at by (exact F || apply N.eqb_refl). rewrite E. reflexivity.
  Qed.
  Lemma free_of x t : (forall c, In c t -> f c <> x) -> free (fun c => c =? x)%N (map f t).
  Proof. intros H c I. apply in_map_iff in I as (e & <- & I). apply N.eqb_neq, H, I. Qed.
  Lemma commas_chars : forall l c, In c (commas l) -> In c l \/ c = 44%N.
  Proof.
    intros l. remember (List.length l) as n eqn:En. revert l En. induction n as [n IH] using lt_wf_ind. intros [|a [|b [|d [|e r]]]] En c I; try (left; exact I).
    change (In c ([a; b; d; 44%N] ++ commas (e :: r))) in I. apply in_app_or in I as [I|I]; [cbn in I; cbn; intuition|]. destruct (IH (List.length (e :: r)) ltac:(subst n; cbn; lia) (e :: r) eq_refl c I) as [J|J]; [left; do 3 right; exact J|right; exact J].
  Qed.
  Lemma group_char n c : In c (rev (commas (rev (dec n)))) -> isdigit c \/ c = 44%N.
  Proof. intros I. apply in_rev in I. apply commas_chars in I as [I|I]; [left|right; exact I]. apply in_rev in I. apply (dec_digit n c I). Qed.
  Lemma gap_digit c : isdigit c -> f c <> s_gap s.
  Proof. intros C. apply N.eqb_neq, not_sign; [exact C|cbn; auto]. Qed.
  Lemma head_digit n r : exists c t', dec n ++ r = c :: t' /\ isdigit c.
  Proof.
    pose proof (dec_nonempty n) as Ne. pose proof (dec_digit n) as D. destruct (dec n) as [|c t]; [congruence|]. exists c, (t ++ r). split; [reflexivity|]. apply D. left. reflexivity.
  Qed.
  Lemma fmt7_read n u : amount_of s grouped (map f (fmt7 n) ++ s_gap s :: u) = Some (n, u).
  Proof.
    unfold fmt7. apply amount_written; [| |apply grouped_written].
    - destruct (commas_groups (rev (dec n))) as (g & gs & E1 & E2 & L & _).
      { intros E. apply (f_equal (@rev N)) in E. rewrite rev_involutive in E. exact (dec_nonempty n E). }
      rewrite E1. unfold sepd. destruct g as [|c g]; [cbn in L; lia|]. eexists _, _. split; [reflexivity|]. rewrite rev_involutive in E2. apply (dec_digit n). rewrite E2. left. reflexivity.
    - apply free_of. intros c I. destruct (group_char n c I) as [C| ->]; [apply gap_digit, C|]. rewrite (w_group _ _ W). apply (w_other _ _ W).
  Qed.
  Lemma fmt51_read r u : amount_of s tenths (map f (fmt51 r) ++ s_gap s :: u) = Some (r, u).
  Proof.
    unfold fmt51. apply amount_written; [apply head_digit| |apply tenths_written].
    apply free_of. intros c I. apply in_app_or in I as [I|I]; [apply gap_digit, (dec_digit _ _ I)|]. apply in_app_or in I as [I|I]; [|apply gap_digit, (dec_digit _ _ I)].
    destruct I as [<-|[]]. change (N_of_ascii "."%char) with 46%N. rewrite (w_point _ _ W). apply (w_other _ _ W).
  Qed.
End Numbers.

(** * HTML *)
Definition sg (ar : bool) : signs := if ar then arabic else english.
Definition num1 (ar : bool) : N -> N := if ar then arab1 else fun c => if N.eqb c 32 then 0x2007%N else c.
Lemma filter_num_map ar t : filter_num ar t = map (num1 ar) t.
Proof. destruct ar; reflexivity. Qed.
Lemma writes_lang ar : writes (num1 ar) (sg ar).
Proof. destruct ar; [apply writes_ar|apply writes_en]. Qed.
Definition plain_chars (t : text) : Prop := free is_lt t /\ free is_amp t.
Lemma content_plain t : free is_amp t -> content t = Some t.
Proof. intros F. unfold content. cbn [chars]. rewrite (cut_none _ _ F). reflexivity. Qed.
Lemma chars_plain n t : free is_amp t -> chars (S n) t = Some t.
Proof. intros F. cbn [chars]. rewrite (cut_none _ _ F). reflexivity. Qed.
Lemma content_gap ar a u : free is_amp a -> free is_amp u -> content (a ++ gap ar ++ u) = Some (a ++ s_gap (sg ar) :: u).
Proof.
  intros A U. destruct ar.
  - apply content_plain. apply free_app; [exact A|]. intros c [<-|I]; [reflexivity|exact (U c I)].
  - unfold content. change (gap false ++ u) with (38%N :: lit "#x2008" ++ 59%N :: u). cbn [chars]. rewrite cut_at by (exact A || reflexivity).
    rewrite cut_at by (reflexivity || (intros c I; repeat destruct I as [<-|I]; try reflexivity; destruct I)).
    change (after (lit "#x") (lit "#x2008")) with (Some (lit "2008")).
    assert (L : exists k, List.length (a ++ 38%N :: lit "#x2008" ++ 59%N :: u) = S k) by (rewrite app_length; cbn; eexists; rewrite Nat.add_succ_r; reflexivity).
    destruct L as (k & ->). rewrite (chars_plain k u U). reflexivity.
Qed.
Lemma free_gap ar : free is_lt (gap ar).
Proof. intros c I. destruct ar; repeat destruct I as [<-|I]; try reflexivity; destruct I. Qed.
Lemma num1_safe ar c : isdigit c \/ In c [32; 44; 46]%N -> is_lt (num1 ar c) = false /\ is_amp (num1 ar c) = false.
Proof.
  intros [C|C].
  - revert c C. apply isdigit_cases. apply small9; destruct ar; split; reflexivity.
  - cbn in C. repeat destruct C as [<-|C]; try (destruct ar; split; reflexivity). destruct C.
Qed.
Lemma num_plain ar t : (forall c, In c t -> isdigit c \/ In c [32; 44; 46]%N) -> plain_chars (map (num1 ar) t).
Proof. intros H. split; intros c I; apply in_map_iff in I as (e & <- & I); apply num1_safe, H, I. Qed.
Lemma padl_chars w t c : In c (padl w t) -> c = 32%N \/ In c t.
Proof. unfold padl. intros I. apply in_app_or in I as [I|I]; [left; apply repeat_spec in I; exact I|right; exact I]. Qed.
Lemma fmt7_plain ar n : plain_chars (filter_num ar (fmt7 n)).
Proof.
  rewrite filter_num_map. apply num_plain. intros c I. apply padl_chars in I as [-> |I]; [right; cbn; auto|]. apply group_char in I as [I| ->]; [left; exact I|right; cbn; auto].
Qed.
Lemma fmt51_plain ar n : plain_chars (filter_num ar (fmt51 n)).
Proof.
  rewrite filter_num_map. apply num_plain. intros c I. apply padl_chars in I as [-> |I]; [right; cbn; auto|].
  apply in_app_or in I as [I|I]; [left; apply (dec_digit _ _ I)|]. apply in_app_or in I as [I|I]; [|left; apply (dec_digit _ _ I)]. destruct I as [<-|[]]. right. cbn. auto.
Qed.
(** Cells *)
Lemma td_read t s r : free is_lt t -> content t = Some s -> read_td (t ++ lit "</td>" ++ r) = Some ((None, s), r).
Proof.
  intros F C. unfold read_td.
  assert (A : after (lit "<a href=") (t ++ lit "</td>" ++ r) = None).
  { destruct t as [|x t]; [reflexivity|]. assert (X := F x (or_introl eq_refl)). unfold is_lt in X. cbn [app].
    change (lit "<a href=") with (60%N :: lit "a href="). cbn [after]. rewrite N.eqb_sym, X. reflexivity. }
  rewrite A. change (lit "</td>" ++ r) with (60%N :: lit "/td>" ++ r). rewrite cut_at by (exact F || reflexivity). rewrite C. reflexivity.
Qed.
Lemma link_read url name r : free is_dq url -> plain_chars name ->
  read_td (lit "<a href=" ++ quote ++ url ++ quote ++ lit ">" ++ name ++ lit "</a>" ++ lit "</td>" ++ r) = Some ((Some url, name), r).
Proof.
  intros U [L A]. unfold read_td. change (after (lit "<a href=") (lit "<a href=" ++ ?x)) with (Some x). cbn iota.
  change (quote ++ url ++ ?x) with (34%N :: url ++ x). change (is_dq 34) with true. cbn iota. change (quote ++ lit ">" ++ ?x) with (34%N :: lit ">" ++ x).
  rewrite cut_at by (exact U || reflexivity). change (after (lit ">") (lit ">" ++ ?x)) with (Some x). cbn iota.
  change (lit "</a>" ++ lit "</td>" ++ r) with (60%N :: lit "/a></td>" ++ r). rewrite cut_at by (exact L || reflexivity). rewrite (content_plain _ A). reflexivity.
Qed.
(** What is between tr and /tr is read as these cells *)
Definition cells_read (ts : list text) (cs : list cell) : Prop :=
  Forall2 (fun t c => exists b, t = lit "<td>" ++ b /\ forall r, read_td (b ++ r) = Some (c, r)) ts cs.
Lemma read_cells_ok ts cs r : cells_read ts cs -> forall k, List.length ts < k -> read_cells k (concat ts ++ lit "</tr>" ++ r) = Some (cs, lit "</tr>" ++ r).
Proof.
  induction 1 as [|t c ts cs (b & -> & H) F IH]; intros [|k] L; cbn [List.length] in L; try lia; [reflexivity|].
  cbn [concat]. rewrite <- !app_assoc. cbn [read_cells]. change (after (lit "<td>") (lit "<td>" ++ ?x)) with (Some x). cbn iota. rewrite H, IH by lia. reflexivity.
Qed.
Lemma cells_long ts cs : cells_read ts cs -> List.length ts <= List.length (concat ts).
Proof. induction 1 as [|t c ts cs (b & -> & H) F IH]; [reflexivity|]. cbn [concat]. rewrite !app_length. cbn [List.length lit]. cbn. lia. Qed.
Definition row_read (t : text) (cs : list cell) : Prop := exists ts, t = tr ts /\ cells_read ts cs.
Lemma read_rows_ok rs css : Forall2 row_read rs css -> forall k, List.length rs < k -> read_rows k (concat rs) = Some css.
Proof.
  induction 1 as [|t c rs css (ts & -> & H) F IH]; intros [|k] L; cbn [List.length] in L; try lia; [reflexivity|].
  cbn [concat read_rows]. unfold tr. rewrite <- !app_assoc.
  change (match lit "<tr>" ++ ?x with [] => Some [] | _ :: _ => ?y end) with y. change (after (lit "<tr>") (lit "<tr>" ++ ?x)) with (Some x). cbn iota.
  rewrite (read_cells_ok _ _ _ H) by (rewrite app_length; pose proof (cells_long _ _ H); lia).
  change (after (lit "</tr>") (lit "</tr>" ++ ?x)) with (Some x). cbn iota. rewrite IH by lia. reflexivity.
Qed.
Lemma read_html_ok rs css : Forall2 row_read rs css -> read_html (concat rs) = Some css.
Proof.
  intros H. apply read_rows_ok; [exact H|]. apply le_n_S. induction H as [|t c rs css (ts & -> & H) F IH]; [reflexivity|]. cbn [concat]. unfold tr at 1. rewrite !app_length. cbn. lia.
Qed.

(** * Rows *)
(** [n] things are shown as the tenths and unit [v] *)
Definition about (ar : bool) (n : N) (v : N * text) : Prop :=
  exists us k, units (if ar then "ar" else "en") = Ok us /\ nth_error us k = Some (snd v) /\ shown (Z.of_N n) 0 k (Z.of_N (fst v)).
Lemma units_plain ar us u : units (lang ar) = Ok us -> In u us -> plain_chars u.
Proof.
  destruct ar; intros [= <-] I; repeat destruct I as [<-|I]; try destruct I; split; intros c J; repeat destruct J as [<-|J]; try reflexivity; destruct J.
Qed.
Lemma units_lang ar : exists us, units (lang ar) = Ok us.
Proof. destruct ar; eexists; reflexivity. Qed.
Lemma approxCell_read ar n : (n < 10 ^ 27)%N -> exists t v b s, approxCell ar n = Ok t /\ about ar n v /\ t = lit "<td>" ++ b /\
  (forall r, read_td (b ++ r) = Some ((None, s), r)) /\ amount_of (sg ar) tenths s = Some v.
Proof.
  intros B. destruct (units_lang ar) as (us & Eu).
  destruct (@C49_approx (lang ar) us (Z.of_N n) 0 Eu) as (k & r & u & E & Ek & S).
  { split; [lia|]. assert (E27 : pow10 27 = Z.of_N (10 ^ 27)) by (vm_compute; reflexivity). rewrite E27. apply N2Z.inj_lt, B. }
  unfold approxCell. rewrite E. cbn [bind]. assert (R : (0 <= r)%Z).
  { destruct S as (_ & (S & _) & _). pose proof (pow10_pos 0) as P0. assert (P : (0 < pow10 0 * 1000 ^ Z.of_nat k)%Z) by (apply Z.mul_pos_pos; [exact P0|apply Z.pow_pos_nonneg; lia]). nia. }
  destruct (units_plain ar us u Eu (nth_error_In _ _ Ek)) as [Pl Pa]. destruct (fmt51_plain ar (Z.to_N r)) as [Fl Fa].
  eexists _, (Z.to_N r, u), _, _. split; [reflexivity|]. split.
  { exists us, k. cbn [fst snd]. rewrite Z2N.id by exact R. destruct ar; auto. }
  split; [unfold td; reflexivity|]. split.
  - intros x. rewrite <- app_assoc. apply td_read; [|apply content_gap; assumption]. apply free_app; [exact Fl|]. apply free_app; [apply free_gap|exact Pl].
  - rewrite filter_num_map. apply fmt51_read, writes_lang.
Qed.
Definition clean (c : cdoc) : Prop := free is_dq (c_url c) /\ plain_chars (c_en c) /\ plain_chars (c_ar c) /\
  match c_count c with Some (_, en, ar) => plain_chars en /\ plain_chars ar | None => True end.
Definition row_of (ar : bool) (c : cdoc) (r : row) : Prop :=
  r_url r = Some (c_url c) /\ r_name r = (if ar then c_ar c else c_en c) /\
  r_count r = option_map (fun '(n, en, arab) => (n, if ar then arab else en)) (c_count c) /\
  about ar (fst (c_stats c)) (r_words r) /\ about ar (snd (c_stats c)) (r_chars r).
Lemma name_read ar c : clean c -> exists b, nameCell ar c = lit "<td>" ++ b /\ forall r, read_td (b ++ r) = Some ((Some (c_url c), if ar then c_ar c else c_en c), r).
Proof.
  intros (U & E & A & _). unfold nameCell, td. eexists. split; [reflexivity|]. intros r. rewrite <- !app_assoc. apply link_read; [exact U|]. destruct ar; assumption.
Qed.
Lemma count_read ar c : clean c -> exists b s, countCell ar c = lit "<td>" ++ b /\ (forall r, read_td (b ++ r) = Some ((None, s), r)) /\
  (match s with [] => Some None | _ => option_map Some (amount_of (sg ar) grouped s) end) = Some (option_map (fun '(n, en, arab) => (n, if ar then arab else en)) (c_count c)).
Proof.
  intros (_ & _ & _ & K). unfold countCell, td. destruct (c_count c) as [[[n en] arab]|].
  - assert (P : plain_chars (if ar then arab else en)) by (destruct ar; apply K). destruct P as [Pl Pa]. destruct (fmt7_plain ar n) as [Fl Fa].
    eexists _, _. split; [reflexivity|]. split.
    + intros r. rewrite <- app_assoc. apply td_read; [|apply content_gap; assumption]. apply free_app; [exact Fl|]. apply free_app; [apply free_gap|exact Pl].
    + rewrite filter_num_map. set (s := _ ++ _ :: _). assert (E : amount_of (sg ar) grouped s = Some (n, if ar then arab else en)) by apply fmt7_read, writes_lang.
      rewrite E. destruct s; [discriminate E|reflexivity].
  - exists (lit "</td>"), []. split; [reflexivity|]. split; [|reflexivity]. intros r. apply (td_read [] []); [intros x []|reflexivity].
Qed.
Lemma row_ok ar c : clean c -> (fst (c_stats c) < 10 ^ 27)%N -> (snd (c_stats c) < 10 ^ 27)%N ->
  exists t cs r, rowText ar c = Ok t /\ row_read t cs /\ read_row (sg ar) cs = Some r /\ row_of ar c r.
Proof.
  intros C B1 B2. destruct (name_read ar c C) as (b1 & E1 & R1). destruct (count_read ar c C) as (b2 & s2 & E2 & R2 & V2).
  destruct (approxCell_read ar _ B1) as (t3 & v3 & b3 & s3 & E3 & A3 & T3 & R3 & V3). destruct (approxCell_read ar _ B2) as (t4 & v4 & b4 & s4 & E4 & A4 & T4 & R4 & V4).
  unfold rowText. rewrite E3. cbn [bind]. rewrite E4. cbn [bind]. eexists _, _, _. split; [reflexivity|]. split.
  - eexists. split; [reflexivity|]. constructor; [exists b1; split; [exact E1|exact R1]|]. constructor; [exists b2; split; [exact E2|exact R2]|].
    constructor; [exists b3; split; [exact T3|exact R3]|]. constructor; [exists b4; split; [exact T4|exact R4]|constructor].
  - unfold read_row. rewrite V2, V3, V4. split; [reflexivity|]. repeat split; assumption.
Qed.
Definition total_of (ar : bool) (w h : N) (r : row) : Prop :=
  r_url r = None /\ r_name r = totalWord ar /\ r_count r = None /\ about ar w (r_words r) /\ about ar h (r_chars r).
Lemma total_ok ar cs : (sumN (map (fun c => fst (c_stats c)) cs) < 10 ^ 27)%N -> (sumN (map (fun c => snd (c_stats c)) cs) < 10 ^ 27)%N ->
  exists t l r, totalText ar cs = Ok t /\ row_read t l /\ read_row (sg ar) l = Some r /\
    total_of ar (sumN (map (fun c => fst (c_stats c)) cs)) (sumN (map (fun c => snd (c_stats c)) cs)) r.
Proof.
  intros B1 B2. destruct (approxCell_read ar _ B1) as (t3 & v3 & b3 & s3 & E3 & A3 & T3 & R3 & V3). destruct (approxCell_read ar _ B2) as (t4 & v4 & b4 & s4 & E4 & A4 & T4 & R4 & V4).
  unfold totalText. rewrite E3. cbn [bind]. rewrite E4. cbn [bind]. eexists _, [(None, totalWord ar); (None, []); (None, s3); (None, s4)], _. split; [reflexivity|]. split.
  - eexists. split; [reflexivity|]. constructor.
    + exists (totalWord ar ++ lit "</td>"). split; [reflexivity|]. intros r. rewrite <- app_assoc.
      assert (P : forallb (fun x => negb (is_lt x) && negb (is_amp x)) (totalWord ar) = true) by (destruct ar; reflexivity). rewrite forallb_forall in P.
      apply td_read; [|apply content_plain]; intros x I; specialize (P x I); apply andb_prop in P as [P Q]; apply negb_true_iff; assumption.
    + constructor; [exists (lit "</td>"); split; [reflexivity|intros r; apply (td_read [] []); [intros x []|reflexivity]]|].
      constructor; [exists b3; split; [exact T3|exact R3]|]. constructor; [exists b4; split; [exact T4|exact R4]|constructor].
  - unfold read_row. rewrite V3, V4. split; [reflexivity|]. repeat split; assumption.
Qed.
Lemma sum_ge (l : list N) x : In x l -> (x <= sumN l)%N.
Proof. induction l as [|y l IH]; [intros []|]. intros [-> |I]; cbn [sumN fold_right]; [lia|]. specialize (IH I). unfold sumN in *. lia. Qed.
Lemma rows_ok ar cs : Forall clean cs -> Forall (fun c => (fst (c_stats c) < 10 ^ 27)%N /\ (snd (c_stats c) < 10 ^ 27)%N) cs ->
  exists ts css rs, mapM (rowText ar) cs = Ok ts /\ Forall2 row_read ts css /\ Forall2 (fun l r => read_row (sg ar) l = Some r) css rs /\ Forall2 (row_of ar) cs rs.
Proof.
  induction 1 as [|c cs C _ IH]; intros B; [exists [], [], []; repeat split; constructor|]. inversion B as [|? ? [B1 B2] B3]; subst.
  destruct (IH B3) as (ts & css & rs & E & F1 & F2 & F3). destruct (row_ok ar c C B1 B2) as (t & l & r & E1 & R1 & R2 & R3).
  exists (t :: ts), (l :: css), (r :: rs). cbn [mapM]. rewrite E1. cbn [bind]. rewrite E. split; [reflexivity|]. repeat split; constructor; assumption.
Qed.
Lemma text_le_total0 a : forall b, text_le a b || text_le b a = true.
Proof.
  induction a as [|x a IH]; intros [|y b]; cbn [text_le]; try reflexivity. specialize (IH b). destruct (N.ltb_spec x y), (N.ltb_spec y x), (N.eqb_spec x y), (N.eqb_spec y x); cbn; try lia; auto.
Qed.
Lemma text_le_trans a : forall b c, text_le a b = true -> text_le b c = true -> text_le a c = true.
Proof.
  induction a as [|x a IH]; intros [|y b] [|z c]; cbn [text_le]; try discriminate; try reflexivity. intros H1 H2.
  apply orb_true_iff in H1, H2. apply orb_true_iff. destruct H1 as [H1|H1], H2 as [H2|H2];
    repeat match goal with H : (_ && _) = true |- _ => apply andb_prop in H as [? ?] end; rewrite ?N.ltb_lt, ?N.eqb_eq in *; subst; try (left; lia).
  right. rewrite N.eqb_refl. cbn [andb]. eauto.
Qed.
Lemma sortedCorpora_ok lower cs : sorting (fun a b => text_le (lower (c_en a)) (lower (c_en b))) cs (sortedCorpora lower cs).
Proof.
  apply sorted_by_ok.
  - intros a b. apply orb_true_iff, text_le_total0.
  - intros a b c. apply text_le_trans.
Qed.
