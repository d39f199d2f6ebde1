(** Lemmas about fonts in pictures. *)
From Coq Require Import QArith Ascii Lia.
From Verif Require Import Base LayoutModel KlcModel CsrcModel FontModel FilesSpec XmlSpec FontSpec FilesProofs XmlProofs.
Close Scope Q_scope.
Open Scope string_scope.
Open Scope list_scope.

(** * Base 64 *)
Definition below (n : nat) : list N := map N.of_nat (seq 0 n).
Lemma below_in n k : (n < N.of_nat k)%N -> In n (below k).
Proof. intros H. apply in_map_iff. exists (N.to_nat n). split; [apply N2Nat.id|]. apply in_seq. lia. Qed.
Lemma all_below (P : N -> bool) k : forallb P (below k) = true -> forall n, (n < N.of_nat k)%N -> P n = true.
Proof. intros F n H. rewrite forallb_forall in F. apply F, below_in, H. Qed.
Definition bb (a b : list bool) : bool := if list_eq_dec Bool.bool_dec a b then true else false.
Lemma bb_eq a b : bb a b = true -> a = b. Proof. unfold bb. destruct (list_eq_dec _ a b); [auto|discriminate]. Qed.
Lemma bits_split j k n m : (m = N.of_nat (2 ^ j * 2 ^ k))%N ->
  forallb (fun a => bb (bits (j + k) a) (bits j (a / N.of_nat (2 ^ k)) ++ bits k (a mod N.of_nat (2 ^ k)))) (below (N.to_nat m)) = true ->
  (n < m)%N -> bits (j + k) n = bits j (n / N.of_nat (2 ^ k)) ++ bits k (n mod N.of_nat (2 ^ k)).
Proof. intros _ F H. apply bb_eq. apply (all_below _ _ F). rewrite N2Nat.id. exact H. Qed.
Lemma b8_62 n : (n < 256)%N -> bits 8 n = bits 6 (n / 4) ++ bits 2 (n mod 4).
Proof. apply (bits_split 6 2 n 256); vm_compute; reflexivity. Qed.
Lemma b8_44 n : (n < 256)%N -> bits 8 n = bits 4 (n / 16) ++ bits 4 (n mod 16).
Proof. apply (bits_split 4 4 n 256); vm_compute; reflexivity. Qed.
Lemma b8_26 n : (n < 256)%N -> bits 8 n = bits 2 (n / 64) ++ bits 6 (n mod 64).
Proof. apply (bits_split 2 6 n 256); vm_compute; reflexivity. Qed.
Lemma b6_24 x y : (x < 4)%N -> (y < 16)%N -> bits 6 (x * 16 + y) = bits 2 x ++ bits 4 y.
Proof.
  intros X Y. replace x with ((x * 16 + y) / 16)%N at 2 by (rewrite N.div_add_l by discriminate; rewrite N.div_small by exact Y; lia).
  replace y with ((x * 16 + y) mod 16)%N at 3 by (rewrite N.add_comm, N.mod_add by discriminate; apply N.mod_small; exact Y).
  apply (bits_split 2 4 _ 64); [reflexivity|vm_compute; reflexivity|lia].
Qed.
Lemma b6_42 x y : (x < 16)%N -> (y < 4)%N -> bits 6 (x * 4 + y) = bits 4 x ++ bits 2 y.
Proof.
  intros X Y. replace x with ((x * 4 + y) / 4)%N at 2 by (rewrite N.div_add_l by discriminate; rewrite N.div_small by exact Y; lia).
  replace y with ((x * 4 + y) mod 4)%N at 3 by (rewrite N.add_comm, N.mod_add by discriminate; apply N.mod_small; exact Y).
  apply (bits_split 4 2 _ 64); [reflexivity|vm_compute; reflexivity|lia].
Qed.
Lemma of_bits8 n : (n < 256)%N -> of_bits (bits 8 n) = n.
Proof. intros H. apply N.eqb_eq. apply (all_below (fun n => (of_bits (bits 8 n) =? n)%N) 256); [vm_compute; reflexivity|exact H]. Qed.
Lemma octets_at n l : (n < 256)%N -> octets (bits 8 n ++ l) = (n :: fst (octets l), snd (octets l)).
Proof.
  intros H. rewrite <- (of_bits8 n H) at 2. cbn [bits app].
  change (octets (?a :: ?b :: ?c :: ?d :: ?e :: ?f :: ?g :: ?h :: l)) with (let (o, r) := octets l in (of_bits [a; b; c; d; e; f; g; h] :: o, r)).
  destruct (octets l); reflexivity.
Qed.
Lemma index_char n : (n < 64)%N -> index (b64char n) alphabet = Some (N.to_nat n).
Proof.
  intros H. assert (X : match index (b64char n) alphabet with Some m => (N.of_nat m =? n)%N | None => false end = true).
  { apply (all_below (fun n => match index (b64char n) alphabet with Some m => (N.of_nat m =? n)%N | None => false end) 64); [vm_compute; reflexivity|exact H]. }
  destruct (index _ _) as [m|]; [|discriminate X]. apply N.eqb_eq in X. f_equal. lia.
Qed.
(** Characters that occur *)
Definition b64c (c : N) : Prop := (48 <= c <= 57 \/ 65 <= c <= 90 \/ 97 <= c <= 122 \/ c = 43 \/ c = 47)%N.
Lemma char_in n : (n < 64)%N -> b64c (b64char n).
Proof.
  intros H. unfold b64char, b64c. destruct (N.ltb_spec n 26); [lia|]. destruct (N.ltb_spec n 52); [lia|]. destruct (N.ltb_spec n 62); [lia|].
  destruct (N.eqb_spec n 62); lia.
Qed.
Lemma char_nopad n : (n < 64)%N -> is_pad (b64char n) = false.
Proof. intros H. apply char_in in H. unfold is_pad, b64c in *. apply N.eqb_neq. lia. Qed.
Lemma div_lt a k m : (k <> 0)%N -> (a < k * m)%N -> (a / k < m)%N. Proof. intros K H. apply N.div_lt_upper_bound; assumption. Qed.
(** The values behind the characters *)
Fixpoint sextets (l : list N) : list N :=
  match l with
  | [] => []
  | [a] => [a / 4; a mod 4 * 16]%N
  | [a; b] => [a / 4; a mod 4 * 16 + b / 16; b mod 16 * 4]%N
  | a :: b :: c :: l' => [a / 4; a mod 4 * 16 + b / 16; b mod 16 * 4 + c / 64; c mod 64]%N ++ sextets l'
  end.
Fixpoint padding (l : list N) : nat := match l with [] => 0 | [_] => 2 | [_; _] => 1 | _ :: _ :: _ :: l' => padding l' end.
Lemma triples (P : list N -> Prop) : P [] -> (forall a, P [a]) -> (forall a b, P [a; b]) -> (forall a b c l, P l -> P (a :: b :: c :: l)) -> forall l, P l.
Proof. intros H0 H1 H2 H3. fix IH 1. intros [|a [|b [|c l]]]; [exact H0|apply H1|apply H2|apply H3, IH]. Qed.
Lemma encode_sextets l : b64encode l = map b64char (sextets l) ++ repeat 61%N (padding l).
Proof. induction l as [|a|a b|a b c l IH] using triples; try reflexivity. cbn [b64encode sextets padding map app]. rewrite IH. reflexivity. Qed.
Definition byte (n : N) : Prop := (n < 256)%N.
Lemma sextets_small l : Forall byte l -> Forall (fun n => n < 64)%N (sextets l).
Proof.
  unfold byte. induction l as [|a|a b|a b c l IH] using triples; intros H; repeat match goal with H : Forall _ (_ :: _) |- _ => inversion H; clear H; subst end; cbn [sextets];
  try specialize (IH ltac:(assumption)); cbn [app];
  repeat (constructor; [|try assumption]); try assumption;
  repeat match goal with
  | |- context [(?x mod ?k)%N] => pose proof (N.mod_lt x k ltac:(discriminate)); generalize dependent (x mod k)%N; intros
  | A : (?x < 256)%N |- context [(?x / 4)%N] => assert (x / 4 < 64)%N by (apply div_lt; [discriminate|exact A]); generalize dependent (x / 4)%N; intros
  | A : (?x < 256)%N |- context [(?x / 16)%N] => assert (x / 16 < 16)%N by (apply div_lt; [discriminate|exact A]); generalize dependent (x / 16)%N; intros
  | A : (?x < 256)%N |- context [(?x / 64)%N] => assert (x / 64 < 4)%N by (apply div_lt; [discriminate|exact A]); generalize dependent (x / 64)%N; intros
  end; first [lia | constructor].
Qed.
Lemma sextets_bits l : Forall byte l -> flat_map (bits 6) (sextets l) = flat_map (bits 8) l ++ repeat false (2 * padding l).
Proof.
  unfold byte. induction l as [|a|a b|a b c l IH] using triples; intros H; repeat match goal with H : Forall _ (_ :: _) |- _ => inversion H; clear H; subst end.
  - reflexivity.
  - cbn [sextets flat_map padding]. rewrite (b8_62 a) by assumption. rewrite <- (N.add_0_r (a mod 4 * 16)). rewrite b6_24 by first [reflexivity | apply N.mod_lt; discriminate].
    rewrite !app_nil_r, <- !app_assoc. reflexivity.
  - cbn [sextets flat_map padding]. rewrite (b8_62 a), (b8_44 b) by assumption. rewrite <- (N.add_0_r (b mod 16 * 4)).
    rewrite b6_24, b6_42 by first [apply div_lt; [discriminate|assumption] | reflexivity | apply N.mod_lt; discriminate].
    rewrite !app_nil_r, <- !app_assoc. reflexivity.
  - cbn [sextets padding]. rewrite flat_map_app. cbn [flat_map]. rewrite IH by assumption.
    rewrite (b8_62 a), (b8_44 b), (b8_26 c) by assumption.
    rewrite b6_24, b6_42 by first [apply div_lt; [discriminate|assumption] | apply N.mod_lt; discriminate].
    rewrite app_nil_r, <- !app_assoc. reflexivity.
Qed.
Lemma octets_all l r : Forall byte l -> List.length r < 8 -> octets (flat_map (bits 8) l ++ r) = (l, r).
Proof.
  intros H R. induction H as [|a l A H IH].
  - cbn [flat_map app]. do 8 (destruct r as [|? r]; [reflexivity|]). cbn in R. lia.
  - cbn [flat_map]. rewrite <- app_assoc, octets_at by exact A. rewrite IH. reflexivity.
Qed.
Lemma padding_small l : padding l < 3. Proof. induction l using triples; cbn; lia. Qed.
Lemma encode_length l : List.length (b64encode l) mod 4 = 0.
Proof.
  induction l as [|a|a b|a b c l IH] using triples; try reflexivity. cbn [b64encode app List.length].
  change (S (S (S (S (List.length (b64encode l)))))) with (4 + List.length (b64encode l)). rewrite <- Nat.add_mod_idemp_r, IH by discriminate. reflexivity.
Qed.
Lemma span_all p t r : forallb p t = true -> match r with [] => True | c :: _ => p c = false end -> span p (t ++ r) = (t, r).
Proof.
  intros F R. induction t as [|c t IH]; cbn [app].
  - destruct r as [|c r]; [reflexivity|]. cbn [span]. rewrite R. reflexivity.
  - cbn in F. apply andb_true_iff in F as [C F]. cbn [span]. rewrite C, IH by exact F. reflexivity.
Qed.
Lemma decode_encode l : Forall byte l -> b64decode (b64encode l) = Some l.
Proof.
  intros H. pose proof (sextets_small l H) as Sm. pose proof (padding_small l) as P. pose proof (encode_length l) as M. unfold b64decode. revert M. rewrite encode_sextets. intros M.
  rewrite span_all; cycle 1.
  - apply forallb_forall. intros c I. apply in_map_iff in I as (n & <- & I). rewrite Forall_forall in Sm. rewrite char_nopad by (apply Sm, I). reflexivity.
  - destruct (padding l); exact I || reflexivity.
  - rewrite (all_of_map _ _ (map N.to_nat (sextets l))); cycle 1.
    { clear - Sm. induction Sm as [|n s A Sm IH]; cbn [map]; constructor; [apply index_char, A|exact IH]. }
    replace (flat_map (fun v => bits 6 (N.of_nat v)) (map N.to_nat (sextets l))) with (flat_map (bits 6) (sextets l)); cycle 1.
    { clear. induction (sextets l) as [|n s IH]; [reflexivity|]. cbn [flat_map map]. rewrite N2Nat.id, IH. reflexivity. }
    rewrite sextets_bits by exact H. rewrite octets_all; [|exact H|rewrite repeat_length; lia].
    rewrite M, !repeat_length, (Nat.eqb_refl (2 * padding l)).
    assert (A : forall k, forallb is_pad (repeat 61%N k) = true) by (induction k; auto). assert (B : forall k, forallb negb (repeat false k) = true) by (induction k; auto).
    rewrite A, B. apply Nat.ltb_lt in P. rewrite P. reflexivity.
Qed.
Lemma encode_chars l c : Forall byte l -> In c (b64encode l) -> b64c c \/ c = 61%N.
Proof.
  intros H I. rewrite encode_sextets in I. apply in_app_or in I as [I|I]; [left|right].
  - apply in_map_iff in I as (n & <- & I). apply char_in. pose proof (sextets_small l H) as F. rewrite Forall_forall in F. apply F, I.
  - apply repeat_spec in I. exact I.
Qed.

(** * Rules *)
Lemma skip_lead t : skip (nl ++ indent ++ t) = skip t. Proof. reflexivity. Qed.
(** Characters without meaning inside of quotes *)
Definition inner (q c : N) : bool := negb ((c =? 92) || (c =? 123) || (c =? 125) || (c =? 10) || (c =? q))%N.
Lemma value_in q s t v r : forallb (inner q) s = true -> (q =? 92)%N || (q =? 123)%N || (q =? 125)%N || (q =? 10)%N = false -> css_value None t = Some (v, r) ->
  css_value (Some q) (s ++ q :: t) = Some (s ++ q :: v, r).
Proof.
  intros F Q E. apply orb_false_iff in Q as [Q Q4]. induction s as [|c s IH]; cbn [app css_value].
  - rewrite Q, Q4, N.eqb_refl, E. reflexivity.
  - cbn in F. apply andb_true_iff in F as [C F]. unfold inner in C. apply negb_true_iff in C. apply orb_false_iff in C as [C C5]. apply orb_false_iff in C as [C C4].
    rewrite C, C4, C5, IH by exact F. reflexivity.
Qed.
(** ... and outside *)
Definition outer (c : N) : bool := negb ((c =? 92) || (c =? 123) || (c =? 125) || (c =? 59) || is_q c)%N.
Lemma value_out s t v r : forallb outer s = true -> css_value None t = Some (v, r) -> css_value None (s ++ t) = Some (s ++ v, r).
Proof.
  intros F E. induction s as [|c s IH]; [exact E|]. cbn in F. apply andb_true_iff in F as [C F]. unfold outer in C. apply negb_true_iff in C.
  apply orb_false_iff in C as [C C5]. apply orb_false_iff in C as [C C4]. cbn [app css_value]. rewrite C, C4, C5, IH by exact F. reflexivity.
Qed.
Lemma value_end r : css_value None (59%N :: r) = Some ([], r). Proof. reflexivity. Qed.
Lemma value_q q s t v r : forallb (inner q) s = true -> is_q q = true -> css_value None t = Some (v, r) ->
  css_value None (q :: s ++ q :: t) = Some (q :: s ++ q :: v, r).
Proof.
  intros F Q E. assert (O : (q =? 92)%N || (q =? 123)%N || (q =? 125)%N || (q =? 10)%N = false /\ (q =? 59)%N = false).
  { unfold is_q in Q. apply orb_true_iff in Q as [Q|Q]; apply N.eqb_eq in Q; subst q; split; reflexivity. }
  destruct O as [O O5]. cbn [css_value]. rewrite O5, Q, (value_in q s t v r F O E). apply orb_false_iff in O as [O _]. rewrite O. reflexivity.
Qed.
Lemma decl_read f n v t r l u : forallb css_name n = true -> n <> [] -> skip v = v -> v <> [] -> css_value None (v ++ t) = Some (v, r) -> css_decls f r = Some (l, u) ->
  css_decls (S f) (nl ++ indent ++ n ++ lit ": " ++ v ++ t) = Some ((n, v) :: l, u).
Proof.
  intros Fn Nn Sv Nv Ev El. cbn [css_decls]. rewrite skip_lead. destruct n as [|c n]; [congruence|].
  assert (C : css_name c = true) by (cbn in Fn; apply andb_true_iff in Fn; tauto).
  assert (W : is_ws c = false /\ (c =? 125)%N = false).
  { unfold css_name in C. unfold is_ws. apply orb_true_iff in C as [C|C]; [apply andb_true_iff in C as [C C']; apply N.leb_le in C, C'|apply N.eqb_eq in C; subst c; split; reflexivity].
    split; [|apply N.eqb_neq; lia]. repeat (apply orb_false_iff; split); apply N.eqb_neq; lia. }
  destruct W as [W W']. cbn [app skip]. rewrite W, W'.
  change (c :: n ++ lit ": " ++ v ++ t) with ((c :: n) ++ 58%N :: 32%N :: v ++ t). rewrite span_all by (exact Fn || reflexivity).
  replace (after (lit ":") (skip (58%N :: 32%N :: v ++ t))) with (Some (32%N :: v ++ t)) by reflexivity.
  replace (skip (32%N :: v ++ t)) with (v ++ t); [rewrite Ev, El; reflexivity|].
  destruct v as [|d v]; [congruence|]. change (d :: v ++ t = skip (d :: v ++ t)). cbn [skip] in *. destruct (is_ws d); [|reflexivity].
  exfalso. assert (L : forall t, List.length (skip t) <= List.length t) by (clear; induction t as [|c t IH]; cbn; [lia|destruct (is_ws c); cbn; lia]).
  specialize (L v). rewrite Sv in L. cbn in L. lia.
Qed.
Lemma decl_end f r : css_decls (S f) (nl ++ indent ++ lit "}" ++ r) = Some ([], r). Proof. reflexivity. Qed.

Definition tame (c : N) : Prop := b64c c \/ c = 61%N.
Definition urlText (data : text) : text := lit "url(" ++ quote ++ (lit "data:application/font-woff2;charset=utf-8;base64," ++ data) ++ quote ++ lit ") format('woff2')".
Definition nameText (font : string) : text := lit "'" ++ lit font ++ lit "'".
Definition declsOf (font : string) (w : N) (data : text) : list (text * text) :=
  [(lit "font-family", nameText font); (lit "font-style", lit "normal"); (lit "font-weight", dec w); (lit "src", urlText data)].
Lemma fontFace_eq font w data r : fontFace font w data ++ r =
  nl ++ indent ++ lit "@font-face" ++ lit " {" ++ nl ++ indent ++ lit "font-family" ++ lit ": " ++ nameText font ++ lit ";" ++ nl ++ indent ++ lit "font-style" ++ lit ": " ++ lit "normal" ++ lit ";" ++
  nl ++ indent ++ lit "font-weight" ++ lit ": " ++ dec w ++ lit ";" ++ nl ++ indent ++ lit "src" ++ lit ": " ++ urlText data ++ lit ";" ++ nl ++ indent ++ lit "}" ++ nl ++ indent ++ r.
Proof. unfold fontFace, join, nameText, urlText. rewrite <- ?app_assoc. reflexivity. Qed.
Lemma dec_plain w : skip (dec w) = dec w /\ forallb outer (dec w) = true.
Proof.
  split.
  - destruct (dec w) as [|c d] eqn:E; [reflexivity|]. assert (D : (48 <= c <= 57)%N) by (apply (dec_digit w); rewrite E; left; reflexivity).
    cbn [skip]. replace (is_ws c) with false; [reflexivity|]. symmetry. unfold is_ws. repeat (apply orb_false_iff; split); apply N.eqb_neq; lia.
  - apply forallb_forall. intros c I. apply dec_digit in I. unfold outer, is_q. apply negb_true_iff. repeat (apply orb_false_iff; split); apply N.eqb_neq; lia.
Qed.
Lemma tame_inner data : Forall tame data -> forallb (inner 34) data = true.
Proof.
  intros H. apply forallb_forall. intros c I. rewrite Forall_forall in H. specialize (H c I). unfold tame, b64c in H. unfold inner. apply negb_true_iff.
  repeat (apply orb_false_iff; split); apply N.eqb_neq; lia.
Qed.
Definition name_ok (font : string) : Prop := forallb (inner 39) (lit font) = true.
Lemma decls_read f font w data r : name_ok font -> Forall tame data ->
  css_decls (5 + f) (nl ++ indent ++ lit "font-family" ++ lit ": " ++ nameText font ++ lit ";" ++ nl ++ indent ++ lit "font-style" ++ lit ": " ++ lit "normal" ++ lit ";" ++
  nl ++ indent ++ lit "font-weight" ++ lit ": " ++ dec w ++ lit ";" ++ nl ++ indent ++ lit "src" ++ lit ": " ++ urlText data ++ lit ";" ++ nl ++ indent ++ lit "}" ++ r)
  = Some (declsOf font w data, r).
Proof.
  intros N T. unfold declsOf. change (5 + f) with (S (S (S (S (S f))))).
  eapply decl_read; [reflexivity|discriminate|reflexivity|discriminate| |].
  { unfold nameText. change (lit "'") with [39%N]. rewrite <- !app_assoc. cbn [app]. eapply value_q; [exact N|reflexivity|apply value_end]. }
  eapply decl_read; [reflexivity|discriminate|reflexivity|discriminate|reflexivity|].
  eapply decl_read; [reflexivity|discriminate|apply dec_plain|apply dec_nonempty| |].
  { change (lit ";" ++ ?x) with (59%N :: x). rewrite <- (app_nil_r (dec w)) at 2. apply value_out; [apply dec_plain|apply value_end]. }
  eapply decl_read; [reflexivity|discriminate|reflexivity|discriminate| |apply decl_end].
  unfold urlText. rewrite <- !app_assoc. apply value_out; [reflexivity|]. change quote with [34%N]. cbn [app].
  rewrite app_assoc. rewrite (app_assoc _ data (34%N :: _)). apply value_q; [|reflexivity|reflexivity].
  rewrite forallb_app, (tame_inner data T). reflexivity.
Qed.
Lemma last_read data bytes : b64decode data = Some bytes -> data_url (lit "data:application/font-woff2;charset=utf-8;base64," ++ data) = Some (lit "application/font-woff2", bytes).
Proof.
  intros E. unfold data_url.
  replace (after (lit "data:") (lit "data:application/font-woff2;charset=utf-8;base64," ++ data)) with (Some (lit "application/font-woff2;charset=utf-8;base64" ++ 44%N :: data)) by reflexivity.
  rewrite cut_at by reflexivity || (apply lit_free; reflexivity).
  replace (split _ is_semicolon _) with [lit "application/font-woff2"; lit "charset=utf-8"; lit "base64"] by (vm_compute; reflexivity).
  rewrite E. reflexivity.
Qed.
Lemma quoted_at q s t : is_q q = true -> free (fun c => (c =? q)%N) s -> quoted (q :: s ++ q :: t) = Some (s, t).
Proof. intros Q F. unfold quoted. rewrite Q, cut_at; [reflexivity|exact F|apply N.eqb_refl]. Qed.
Lemma face_read font w data bytes : name_ok font -> Forall tame data -> b64decode data = Some bytes ->
  face_of (declsOf font w data) = Some (mkFace (lit font) (lit "normal") w (lit "woff2") (lit "application/font-woff2") bytes).
Proof.
  intros N T E. unfold face_of.
  replace (dget (declsOf font w data) (lit "font-family")) with (Some (nameText font)) by reflexivity.
  replace (dget (declsOf font w data) (lit "font-style")) with (Some (lit "normal")) by reflexivity.
  replace (dget (declsOf font w data) (lit "font-weight")) with (Some (dec w)) by reflexivity.
  replace (dget (declsOf font w data) (lit "src")) with (Some (urlText data)) by reflexivity.
  unfold nameText. change (lit "'") with [39%N]. cbn [app]. rewrite quoted_at; [|reflexivity|].
  2:{ unfold name_ok in N. rewrite forallb_forall in N. intros c I. specialize (N c I). unfold inner in N. apply negb_true_iff in N. apply orb_false_iff in N as [_ N]. exact N. }
  cbn [whole]. rewrite dec_number. unfold source, urlText.
  replace (after (lit "url(") _) with (Some (34%N :: (lit "data:application/font-woff2;charset=utf-8;base64," ++ data) ++ 34%N :: lit ") format('woff2')")) by reflexivity.
  rewrite quoted_at; [|reflexivity|].
  2:{ apply free_app; [apply lit_free; reflexivity|]. intros c I. rewrite Forall_forall in T. specialize (T c I). unfold tame, b64c in T. apply N.eqb_neq. lia. }
  replace (after (lit ") format(") _) with (Some (lit "'woff2')")) by reflexivity.
  replace (quoted (lit "'woff2')")) with (Some (lit "woff2", lit ")")) by reflexivity. cbn [eqb]. rewrite eqb_refl, (last_read data bytes E). reflexivity.
Qed.
Lemma faces_more f : forall f' t x, faces f t = Some x -> f <= f' -> faces f' t = Some x.
Proof.
  induction f as [|f IH]; intros f' t x E L; [discriminate E|]. destruct f' as [|f']; [lia|]. cbn [faces] in *.
  destruct (after (lit "@font-face") (skip t)) as [r|]; [|exact E]. destruct (after (lit "{") (skip r)) as [r'|]; [|exact E].
  destruct (css_decls _ r') as [[d u]|]; [|exact E]. destruct (face_of d) as [y|]; [|exact E].
  destruct (faces f u) as [[l v]|] eqn:F; [|discriminate E]. rewrite (IH f' u (l, v) F) by lia. exact E.
Qed.
Lemma faces_skip f t : faces f (nl ++ indent ++ t) = faces f t.
Proof. destruct f; [reflexivity|]. cbn [faces]. rewrite skip_lead. reflexivity. Qed.
Lemma faces_read f font w data bytes r l u : name_ok font -> Forall tame data -> b64decode data = Some bytes -> faces f r = Some (l, u) ->
  faces (S f) (fontFace font w data ++ r) = Some (mkFace (lit font) (lit "normal") w (lit "woff2") (lit "application/font-woff2") bytes :: l, u).
Proof.
  intros N T E F. rewrite fontFace_eq. cbn [faces]. rewrite skip_lead.
  match goal with |- context [skip (lit "@font-face" ++ ?x)] => remember x as t eqn:Et; replace (skip (lit "@font-face" ++ t)) with (lit "@font-face" ++ t) by reflexivity;
    replace (after (lit "@font-face") (lit "@font-face" ++ t)) with (Some t) by reflexivity end.
  subst t. match goal with |- context [skip (lit " {" ++ ?x)] => remember x as t eqn:Et; replace (after (lit "{") (skip (lit " {" ++ t))) with (Some t) by reflexivity end.
  assert (G : exists k, S (List.length t) = 5 + k).
  { exists (List.length t - 4). assert (4 <= List.length t); [|lia]. subst t. rewrite !app_length. change (List.length indent) with 16. lia. }
  destruct G as [k ->]. subst t. rewrite decls_read by assumption. rewrite (face_read _ _ _ bytes N T E), faces_skip, F. reflexivity.
Qed.
