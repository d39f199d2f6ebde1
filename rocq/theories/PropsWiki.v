(** C88: text of a mediawiki dump arrives unchanged at the workers.
    See lulua/text.py:208-209, 345-352, 436-437, 464-478. *)
From Verif Require Import Base TextModel FilterModel KlcModel WikiModel.
Set Implicit Arguments.
Open Scope string_scope.
Open Scope list_scope.

(** * Specification: documents *)
(** A document is a tree; text between tags may come in pieces. *)
Inductive xml := Node (tag : string) (cs : list xml) | Chars (t : text) | Comment.
(** The text of a document, without its tags and comments *)
Fixpoint chars_of (x : xml) : text :=
  match x with Node _ cs => flat_map chars_of cs | Chars t => t | Comment => [] end.
(** The texts of all pages, in the order of their end tags *)
Fixpoint pages (x : xml) : list text :=
  match x with
  | Node tag cs => flat_map pages cs ++ (if string_dec tag "{http://www.mediawiki.org/xml/export-0.10/}text" then [flat_map chars_of cs] else [])
  | _ => []
  end.
(** The document as it is read *)
Fixpoint tokens (x : xml) : list xtok :=
  match x with
  | Node tag cs => XStart tag :: flat_map tokens cs ++ [XEnd]
  | Chars t => [XText t]
  | Comment => [XOther]
  end.
(** How many pages end in a part of a document; [open] are the elements around it *)
Fixpoint closed (open : list string) (l : list xtok) : nat :=
  match l, open with
  | XStart tag :: l', _ => closed (tag :: open) l'
  | XEnd :: l', tag :: open' => (if string_dec tag "{http://www.mediawiki.org/xml/export-0.10/}text" then 1 else 0) + closed open' l'
  | _ :: l', _ => closed open l'
  | [], _ => 0
  end.

Section XmlInd.
  Variable P : xml -> Prop.
  Hypothesis HN : forall tag cs, Forall P cs -> P (Node tag cs).
  Hypothesis HC : forall t, P (Chars t).
  Hypothesis HO : P Comment.
  Fixpoint xml_ind' (x : xml) : P x :=
    match x with
    | Node tag cs => HN tag ((fix go l : Forall P l := match l with [] => Forall_nil P | y :: l' => Forall_cons y (xml_ind' y) (go l') end) cs)
    | Chars t => HC t
    | Comment => HO
    end.
End XmlInd.

(** * Specification: strings of JSON *)
Definition digit (c : N) (d : nat) : Prop :=
  nth_error (lit "0123456789abcdef") d = Some c \/ nth_error (lit "0123456789ABCDEF") d = Some c.
Definition four (u : N) (s : text) : Prop := exists a b c d a' b' c' d', s = [a; b; c; d] /\
  digit a a' /\ digit b b' /\ digit c c' /\ digit d d' /\ u = N.of_nat (((a' * 16 + b') * 16 + c') * 16 + d').
Definition surrogate (u : N) : Prop := (0xD800 <= u <= 0xDFFF)%N.
(** How a character may be written between the quotes: RFC 8259, section 7 *)
Inductive spells : N -> text -> Prop :=
  | Raw c : (32 <= c)%N -> c <> 34%N -> c <> 92%N -> spells c [c]
  | Short c e : In (c, e) (combine [34; 92; 47; 8; 12; 10; 13; 9]%N (34%N :: lit "\/bfnrt")) -> spells c [92%N; e]
  | Code c s : four c s -> ~ surrogate c -> spells c ([92; 117]%N ++ s)
  | Pair c h s l s' : four h s -> four l s' -> (0xD800 <= h < 0xDC00)%N -> (0xDC00 <= l < 0xE000)%N ->
      c = (0x10000 + (h - 0xD800) * 0x400 + (l - 0xDC00))%N -> spells c ([92; 117]%N ++ s ++ [92; 117]%N ++ s').
Inductive spelled : text -> text -> Prop :=
  | Sp_nil : spelled [] []
  | Sp_cons c t s u : spells c s -> spelled t u -> spelled (c :: t) (s ++ u).
Definition blank (w : text) : Prop := Forall (fun c => In c [32; 9; 10; 13]%N) w.

(** * Proofs: JSON *)
Lemma digit_val c d : digit c d <-> hexval c = Some (N.of_nat d).
Proof.
  split.
  - intros [H|H]; do 16 (destruct d as [|d]; [cbn in H; injection H as <-; reflexivity|]); cbn in H; destruct d; discriminate H.
  - unfold hexval, digit. intros H.
    destruct ((48 <=? c) && (c <=? 57))%N eqn:A.
    + apply andb_true_iff in A. destruct A as [A B]. apply N.leb_le in A, B. injection H as H.
      left. replace d with (N.to_nat (c - 48)) by lia. clear H.
      assert (C : In (c - 48)%N (map N.of_nat (seq 0 10))) by (apply in_map_iff; exists (N.to_nat (c - 48)); split; [lia|apply in_seq; lia]).
      assert (E : c = (48 + (c - 48))%N) by lia. rewrite E at 2. clear E A B. cbn in C.
      repeat (destruct C as [C|C]; [rewrite <- C; reflexivity|]). destruct C.
    + destruct ((97 <=? c) && (c <=? 102))%N eqn:B; [|destruct ((65 <=? c) && (c <=? 70))%N eqn:C; [|discriminate H]].
      * apply andb_true_iff in B. destruct B as [B B']. apply N.leb_le in B, B'. injection H as H.
        left. replace d with (N.to_nat (c - 87)) by lia. clear H.
        assert (C : In (c - 87)%N (map N.of_nat (seq 10 6))) by (apply in_map_iff; exists (N.to_nat (c - 87)); split; [lia|apply in_seq; lia]).
        assert (E : c = (87 + (c - 87))%N) by lia. rewrite E at 2. clear E A B. cbn in C.
        repeat (destruct C as [C|C]; [rewrite <- C; reflexivity|]). destruct C.
      * apply andb_true_iff in C. destruct C as [C C']. apply N.leb_le in C, C'. injection H as H.
        right. replace d with (N.to_nat (c - 55)) by lia. clear H.
        assert (D : In (c - 55)%N (map N.of_nat (seq 10 6))) by (apply in_map_iff; exists (N.to_nat (c - 55)); split; [lia|apply in_seq; lia]).
        assert (E : c = (55 + (c - 55))%N) by lia. rewrite E at 2. clear E A B C. cbn in D.
        repeat (destruct D as [D|D]; [rewrite <- D; reflexivity|]). destruct D.
Qed.
Lemma hexval_digit c v : hexval c = Some v -> digit c (N.to_nat v).
Proof. intros H. apply digit_val. rewrite H. f_equal. lia. Qed.
Lemma four_val u s : four u s <-> exists a b c d, s = [a; b; c; d] /\ hex4val a b c d = Some u.
Proof.
  split.
  - intros (a & b & c & d & a' & b' & c' & d' & -> & A & B & C & D & ->).
    exists a, b, c, d. split; [reflexivity|]. apply digit_val in A, B, C, D. unfold hex4val. rewrite A, B, C, D. f_equal. lia.
  - intros (a & b & c & d & -> & H). unfold hex4val in H.
    destruct (hexval a) as [a'|] eqn:A; [|discriminate H]. destruct (hexval b) as [b'|] eqn:B; [|discriminate H].
    destruct (hexval c) as [c'|] eqn:C; [|discriminate H]. destruct (hexval d) as [d'|] eqn:D; [|discriminate H].
    injection H as <-. exists a, b, c, d, (N.to_nat a'), (N.to_nat b'), (N.to_nat c'), (N.to_nat d').
    split; [reflexivity|]. do 4 (split; [apply hexval_digit; assumption|]). lia.
Qed.
Lemma is_high_iff u : is_high u = true <-> (0xD800 <= u < 0xDC00)%N.
Proof. unfold is_high. rewrite andb_true_iff, !N.leb_le. lia. Qed.
Lemma is_low_iff u : is_low u = true <-> (0xDC00 <= u < 0xE000)%N.
Proof. unfold is_low. rewrite andb_true_iff, !N.leb_le. lia. Qed.
Lemma scan_code h1 h2 h3 h4 rest u : hex4val h1 h2 h3 h4 = Some u -> is_high u = false ->
  scanstring (92%N :: 117%N :: h1 :: h2 :: h3 :: h4 :: rest) = consj u (scanstring rest).
Proof. intros H H'. cbn [scanstring]. change ((92 =? 34)%N) with false. change ((92 =? 92)%N) with true. change ((117 =? 117)%N) with true. cbn match. rewrite H, H'. reflexivity. Qed.
Lemma scan_pair h1 h2 h3 h4 g1 g2 g3 g4 rest u v : hex4val h1 h2 h3 h4 = Some u -> hex4val g1 g2 g3 g4 = Some v -> is_high u = true -> is_low v = true ->
  scanstring (92%N :: 117%N :: h1 :: h2 :: h3 :: h4 :: 92%N :: 117%N :: g1 :: g2 :: g3 :: g4 :: rest) = consj (join_surrogates u v) (scanstring rest).
Proof.
  intros H G H' G'. remember (g1 :: g2 :: g3 :: g4 :: rest) as z eqn:Z. cbn [scanstring].
  change ((92 =? 34)%N) with false. change ((92 =? 92)%N) with true. change ((117 =? 117)%N) with true. cbn match. rewrite H, H', Z. cbn [andb]. rewrite G, G'. reflexivity.
Qed.
Lemma scan_spells c s rest : spells c s -> scanstring (s ++ rest) = consj c (scanstring rest).
Proof.
  intros H. destruct H as [c H H1 H2|c e H|c s H H1|c h s l s' H H0 H1 H2 ->].
  - cbn [app scanstring]. apply N.eqb_neq in H1, H2. rewrite H1, H2. replace ((c <? 32)%N) with false by (symmetry; apply N.ltb_ge; exact H). reflexivity.
  - cbn in H. repeat (destruct H as [H|H]; [injection H as <- <-; reflexivity|]). destruct H.
  - apply four_val in H. destruct H as (h1 & h2 & h3 & h4 & -> & H). cbn [app]. apply scan_code; [exact H|].
    destruct (is_high c) eqn:E; [|reflexivity]. apply is_high_iff in E. exfalso. apply H1. unfold surrogate. lia.
  - apply four_val in H, H0. destruct H as (h1 & h2 & h3 & h4 & -> & H). destruct H0 as (g1 & g2 & g3 & g4 & -> & G). cbn [app].
    apply scan_pair; [exact H|exact G|apply is_high_iff; exact H1|apply is_low_iff; exact H2].
Qed.
Lemma scan_spelled t s rest : spelled t s -> scanstring (s ++ 34%N :: rest) = Some (t, rest).
Proof.
  intros H. induction H as [|c t s u H _ IH]; [reflexivity|]. rewrite <- app_assoc, (scan_spells _ H), IH. reflexivity.
Qed.
Lemma consj_inv c r t rest : consj c r = Some (t, rest) -> exists t', t = c :: t' /\ r = Some (t', rest).
Proof. destruct r as [[t' rest']|]; intros H; [|discriminate H]. injection H as <- <-. eauto. Qed.
Lemma backslash_short e x : backslash e = Some x -> spells x [92%N; e].
Proof.
  unfold backslash. intros H. apply dget_In in H. apply Short. cbn in *.
  repeat (destruct H as [H|H]; [injection H as <- <-; tauto|]). destruct H.
Qed.
Lemma scan_inv n : forall s t rest, List.length s <= n -> scanstring s = Some (t, rest) -> Forall (fun c => ~ surrogate c) t ->
  exists u, s = u ++ 34%N :: rest /\ spelled t u.
Proof.
  induction n as [|n IH]; intros s t rest L H NS; (destruct s as [|c s]; [discriminate H|]); cbn [List.length] in L; [lia|].
  assert (Go : forall x p s' , c :: s = p ++ s' -> List.length s' <= n -> spells x p \/ surrogate x -> consj x (scanstring s') = Some (t, rest) ->
    exists u, c :: s = u ++ 34%N :: rest /\ spelled t u).
  { intros x p s' -> L' Sp E. apply consj_inv in E. destruct E as (t' & -> & E). inversion NS as [|? ? N1 N2]; subst.
    destruct (IH _ _ _ L' E N2) as (u & -> & U). exists (p ++ u). rewrite <- app_assoc. split; [reflexivity|]. constructor; [|exact U]. destruct Sp as [Sp|Sp]; [exact Sp|contradiction]. }
  cbn [scanstring] in H. destruct (N.eqb_spec c 34) as [->|N34].
  { injection H as <- <-. exists []. split; [reflexivity|constructor]. }
  destruct (N.eqb_spec c 92) as [->|N92].
  - destruct s as [|e s2]; [discriminate H|]. destruct (N.eqb_spec e 117) as [->|Nu].
    + destruct s2 as [|h1 [|h2 [|h3 [|h4 s3]]]]; try discriminate H.
      destruct (hex4val h1 h2 h3 h4) as [u|] eqn:Hu; [|discriminate H]. cbn [List.length] in L.
      assert (Fu : four u [h1; h2; h3; h4]) by (apply four_val; exists h1, h2, h3, h4; auto).
      assert (One : consj u (scanstring s3) = Some (t, rest) -> exists w, 92%N :: 117%N :: h1 :: h2 :: h3 :: h4 :: s3 = w ++ 34%N :: rest /\ spelled t w).
      { intros E. apply (Go u [92; 117; h1; h2; h3; h4]%N s3); [reflexivity|lia| |exact E].
        destruct (N.leb_spec 0xD800 u), (N.leb_spec u 0xDFFF); try (left; apply (Code Fu); unfold surrogate; lia). right. split; assumption. }
      destruct (is_high u) eqn:Hi; [|exact (One H)].
      destruct s3 as [|x [|y [|g1 [|g2 [|g3 [|g4 s4]]]]]]; try exact (One H).
      destruct (N.eqb_spec x 92) as [->|Nx]; [|exact (One H)]. destruct (N.eqb_spec y 117) as [->|Ny]; [|exact (One H)]. cbn [andb] in H.
      destruct (hex4val g1 g2 g3 g4) as [v|] eqn:Hv; [|discriminate H]. destruct (is_low v) eqn:Lo; [|exact (One H)]. cbn [List.length] in L.
      assert (Fv : four v [g1; g2; g3; g4]) by (apply four_val; exists g1, g2, g3, g4; auto).
      apply (Go (join_surrogates u v) [92; 117; h1; h2; h3; h4; 92; 117; g1; g2; g3; g4]%N s4); [reflexivity|lia| |exact H].
      left. apply is_high_iff in Hi. apply is_low_iff in Lo. exact (Pair Fu Fv Hi Lo eq_refl).
    + destruct (backslash e) as [x|] eqn:B; [|discriminate H]. cbn [List.length] in L.
      apply (Go x [92%N; e] s2); [reflexivity|lia|left; exact (backslash_short _ B)|exact H].
  - destruct (N.ltb_spec c 32) as [C|C]; [discriminate H|].
    apply (Go c [c] s); [reflexivity|lia|left; constructor; assumption|exact H].
Qed.
Lemma json_space_iff c : json_space c = true <-> In c [32; 9; 10; 13]%N.
Proof.
  unfold json_space. rewrite !orb_true_iff, !N.eqb_eq. cbn. intuition congruence.
Qed.
Lemma skip_blank w t : blank w -> skip_space (w ++ t) = skip_space t.
Proof. intros H. induction H as [|c w H _ IH]; [reflexivity|]. cbn [app skip_space]. apply json_space_iff in H. rewrite H. exact IH. Qed.
Lemma skip_inv t : exists w, blank w /\ t = w ++ skip_space t.
Proof.
  induction t as [|c t [w [B E]]]; [exists []; split; [constructor|reflexivity]|]. cbn [skip_space]. destruct (json_space c) eqn:S.
  - exists (c :: w). split; [constructor; [apply json_space_iff; exact S|exact B]|]. cbn. rewrite <- E. reflexivity.
  - exists []. split; [constructor|reflexivity].
Qed.

(** A string is read iff it is written as JSON prescribes. *)
Theorem C88_read other t s w w' : spelled t s -> blank w -> blank w' -> json_loads other (w ++ 34%N :: s ++ 34%N :: w') = Ok (JStr t).
Proof.
  intros H B B'. unfold json_loads. rewrite (skip_blank _ B). cbn [skip_space]. change (json_space 34) with false. cbn match.
  rewrite (scan_spelled _ H). rewrite <- (app_nil_r w'), (skip_blank _ B'). reflexivity.
Qed.
Theorem C88_read_only other doc t : (forall s u, other s <> Ok (JStr u)) -> Forall (fun c => ~ surrogate c) t -> json_loads other doc = Ok (JStr t) ->
  exists w s w', doc = w ++ 34%N :: s ++ 34%N :: w' /\ spelled t s /\ blank w /\ blank w'.
Proof.
  intros O NS H. unfold json_loads in H. destruct (skip_inv doc) as (w & B & E). remember (skip_space doc) as d eqn:D. clear D.
  assert (G : (exists d', d = 34%N :: d') \/ (if KlcModel.starts (lit "null") d then match skip_space (skipn 4 d) with [] => Ok JNull | _ => Raise ValueError end else other doc) = Ok (JStr t)).
  { destruct d as [|c d']; [right; exact H|]. destruct (N.eq_dec c 34) as [->|N]; [left; eauto|]. right.
    destruct c as [|p]; [exact H|]. do 6 (destruct p as [p|p|]; try exact H). contradiction. }
  destruct G as [[d' ->]|G].
  - destruct (scanstring d') as [[u rest]|] eqn:Sc; [|discriminate H].
    destruct (skip_inv rest) as (w' & B' & E'). destruct (skip_space rest) as [|]; [|discriminate H]. injection H as ->.
    destruct (@scan_inv _ _ _ _ (le_n _) Sc NS) as (s & -> & Sp). exists w, s, rest. rewrite app_nil_r in E'. subst. auto.
  - clear H. destruct (KlcModel.starts (lit "null") d); [|exfalso; exact (O _ _ G)]. destruct (skip_space (skipn 4 d)); discriminate G.
Qed.

Lemma escape_spells c : spells c (json_escape c).
Proof.
  unfold json_escape.
  destruct (N.eqb_spec c 34) as [->|]; [apply Short; cbn; tauto|].
  destruct (N.eqb_spec c 92) as [->|]; [apply Short; cbn; tauto|].
  destruct (N.eqb_spec c 10) as [->|]; [apply Short; cbn; tauto|].
  destruct (N.eqb_spec c 13) as [->|]; [apply Short; cbn; tauto|].
  destruct (N.eqb_spec c 9) as [->|]; [apply Short; cbn; tauto|].
  destruct (N.eqb_spec c 12) as [->|]; [apply Short; cbn; tauto|].
  destruct (N.eqb_spec c 8) as [->|]; [apply Short; cbn; tauto|].
  destruct (N.ltb_spec c 32) as [L|L]; [|constructor; assumption].
  apply (@Code c [48; 48; hexdigit (c / 16); hexdigit (c mod 16)]%N); [|unfold surrogate; lia].
  apply four_val. exists 48%N, 48%N, (hexdigit (c / 16)), (hexdigit (c mod 16)). split; [reflexivity|].
  assert (C : In c (map N.of_nat (seq 0 32))) by (apply in_map_iff; exists (N.to_nat c); split; [lia|apply in_seq; lia]).
  cbn in C. repeat (destruct C as [<-|C]; [reflexivity|]). destruct C.
Qed.
Lemma dump_spelled t : spelled t (flat_map json_escape t).
Proof. induction t as [|c t IH]; [constructor|]. cbn [flat_map]. constructor; [apply escape_spells|exact IH]. Qed.
Theorem C88_written other t : json_loads other (json_dump t ++ [10%N]) = Ok (JStr t).
Proof.
  unfold json_dump. rewrite <- app_comm_cons, <- app_assoc. apply (@C88_read other _ _ [] [10%N] (dump_spelled t)); repeat constructor; cbn; tauto.
Qed.

(** * Proofs: lines *)
Lemma escape_no_break c : ~ In 10%N (json_escape c) /\ ~ In 13%N (json_escape c).
Proof.
  unfold json_escape.
  destruct (N.eqb_spec c 34) as [->|]; [cbn; intuition discriminate|].
  destruct (N.eqb_spec c 92) as [->|]; [cbn; intuition discriminate|].
  destruct (N.eqb_spec c 10) as [->|]; [cbn; intuition discriminate|].
  destruct (N.eqb_spec c 13) as [->|]; [cbn; intuition discriminate|].
  destruct (N.eqb_spec c 9) as [->|]; [cbn; intuition discriminate|].
  destruct (N.eqb_spec c 12) as [->|]; [cbn; intuition discriminate|].
  destruct (N.eqb_spec c 8) as [->|]; [cbn; intuition discriminate|].
  destruct (N.ltb_spec c 32) as [L|L]; [|cbn; intuition congruence].
  assert (G : forall x, (hexdigit x = 48 + x \/ hexdigit x = 87 + x)%N) by (intros x; unfold hexdigit; destruct (x <? 10)%N; auto).
  destruct (G (c / 16)%N) as [A|A], (G (c mod 16)%N) as [B|B]; rewrite A, B; cbn [In]; split; intros H; repeat (destruct H as [H|H]; [try discriminate H; lia|]); exact H.
Qed.
Lemma dump_no_break t : ~ In 10%N (json_dump t) /\ ~ In 13%N (json_dump t).
Proof.
  assert (G : forall c, In c (json_dump t) -> c = 34%N \/ exists x, In c (json_escape x)).
  { intros c [H|H]; [auto|]. apply in_app_or in H. destruct H as [H|[H|[]]]; [|auto]. apply in_flat_map in H. destruct H as (x & _ & H). eauto. }
  split; intros H; apply G in H; (destruct H as [H|[x H]]; [discriminate H|]); destruct (escape_no_break x); contradiction.
Qed.
Lemma stdin_line l : forall cur rest, ~ In 10%N l -> ~ In 13%N l -> stdin_lines cur (l ++ 10%N :: rest) = (rev cur ++ l ++ [10%N]) :: stdin_lines [] rest.
Proof.
  induction l as [|c l IH]; intros cur rest A B; cbn [app stdin_lines].
  - reflexivity.
  - destruct (N.eqb_spec c 10) as [->|]; [exfalso; apply A; left; reflexivity|]. destruct (N.eqb_spec c 13) as [->|]; [exfalso; apply B; left; reflexivity|].
    rewrite IH by (intros H; first [exact (A (or_intror H))|exact (B (or_intror H))]). cbn [rev]. rewrite <- app_assoc. reflexivity.
Qed.
Lemma stdin_pages ts : stdin_lines [] (flat_map (fun t => json_dump t ++ [10%N]) ts) = map (fun t => json_dump t ++ [10%N]) ts.
Proof.
  induction ts as [|t ts IH]; [reflexivity|]. cbn [flat_map map]. destruct (dump_no_break t) as [A B].
  rewrite <- app_assoc. cbn [app]. rewrite (@stdin_line _ [] _ A B), IH. reflexivity.
Qed.

(** * Proofs: the tree *)
Definition kids (cs : list (elem * option text)) : text := flat_map (fun p => itertext (fst p) ++ otext (snd p)) cs.
Definition content (o : opened) : text := otext (o_text o) ++ kids (rev (o_children o)).
Definition open_ok (o : opened) (tail : bool) : Prop :=
  if tail then exists e cs, o_children o = (e, None) :: cs else o_text o = None /\ o_children o = [].
(** Everything read since the start tag of [o] *)
Definition seen (o : opened) (data : list text) : text := content o ++ concat data.
Lemma kids_app a b : kids (a ++ b) = kids a ++ kids b.
Proof. apply flat_map_app. Qed.
Lemma flush_spec o os data tail : open_ok o tail -> exists o', flush (mkB (o :: os) data tail) = mkB (o' :: os) [] tail /\ o_tag o' = o_tag o /\ content o' = seen o data.
Proof.
  intros I. unfold flush, seen. cbn [b_data b_stack b_tail]. destruct data as [|d data].
  - exists o. rewrite app_nil_r. auto.
  - destruct tail; cbn in I.
    + destruct I as (e & cs & E). rewrite E. eexists. split; [reflexivity|]. split; [reflexivity|]. unfold content. cbn [o_text o_children]. rewrite E. cbn [rev].
      rewrite !kids_app. unfold kids at 2 4. cbn [flat_map fst snd otext]. rewrite !app_nil_r, !app_assoc. reflexivity.
    + destruct I as [E E']. eexists. split; [reflexivity|]. split; [reflexivity|]. unfold content. cbn [o_text o_children]. rewrite E, E'. cbn. rewrite app_nil_r. reflexivity.
Qed.
Definition page_texts (es : list elem) : list text := map itertext (filter (fun e => eqb (elem_tag e) wikitag) es).
Lemma page_texts_app a b : page_texts (a ++ b) = page_texts a ++ page_texts b.
Proof. unfold page_texts. rewrite filter_app, map_app. reflexivity. Qed.
Fixpoint feed_all (b : builder) (l : list xtok) : builder :=
  match l with [] => b | k :: l' => feed_all (fst (feed b k)) l' end.
Lemma iterparse_app l : forall b l', iterparse b (l ++ l') = iterparse b l ++ iterparse (feed_all b l) l'.
Proof.
  induction l as [|k l IH]; intros b l'; [reflexivity|]. cbn [app iterparse feed_all]. destruct (feed b k) as [b' e]. cbn [fst]. rewrite IH, app_assoc. reflexivity.
Qed.
Lemma feed_all_app l : forall b l', feed_all b (l ++ l') = feed_all (feed_all b l) l'.
Proof. induction l as [|k l IH]; intros b l'; [reflexivity|]. cbn [app feed_all]. apply IH. Qed.
Lemma eqb_string_dec {T} (tag : string) (a b : T) : (if eqb tag wikitag then a else b) = if string_dec tag "{http://www.mediawiki.org/xml/export-0.10/}text" then a else b.
Proof.
  fold wikitag. destruct (string_dec tag wikitag) as [->|N]; [rewrite eqb_refl; reflexivity|].
  destruct (eqb tag wikitag) eqn:E; [|reflexivity]. apply (proj1 (eqb_eq _ _)) in E. contradiction.
Qed.
Lemma feed_tree x : forall o os data tail, open_ok o tail ->
  exists o' data' tail', feed_all (mkB (o :: os) data tail) (tokens x) = mkB (o' :: os) data' tail' /\ open_ok o' tail' /\ o_tag o' = o_tag o /\
    seen o' data' = seen o data ++ chars_of x /\ page_texts (iterparse (mkB (o :: os) data tail) (tokens x)) = pages x.
Proof.
  induction x as [tag cs IH|t|] using xml_ind'; intros o os data tail I.
  - assert (F : forall o0 os0 data0 tail0, open_ok o0 tail0 ->
      exists o' data' tail', feed_all (mkB (o0 :: os0) data0 tail0) (flat_map tokens cs) = mkB (o' :: os0) data' tail' /\ open_ok o' tail' /\ o_tag o' = o_tag o0 /\
        seen o' data' = seen o0 data0 ++ flat_map chars_of cs /\ page_texts (iterparse (mkB (o0 :: os0) data0 tail0) (flat_map tokens cs)) = flat_map pages cs).
    { clear o os data tail I. induction IH as [|y cs Hy _ IHc]; intros o os data tail I.
      - exists o, data, tail. cbn. rewrite app_nil_r. auto.
      - destruct (Hy o os data tail I) as (o1 & d1 & t1 & E1 & I1 & T1 & S1 & P1).
        destruct (IHc o1 os d1 t1 I1) as (o2 & d2 & t2 & E2 & I2 & T2 & S2 & P2).
        exists o2, d2, t2. cbn [flat_map]. rewrite feed_all_app, E1, iterparse_app, E1, page_texts_app, P1, P2, S2, S1, app_assoc. split; [exact E2|]. split; [exact I2|]. split; [congruence|]. auto. }
    cbn [tokens feed_all iterparse pages chars_of].
    destruct (flush_spec _ os data _ I) as (o1 & Fl & T1 & C1). unfold feed at 1 2. rewrite Fl. cbn [b_stack b_data fst].
    destruct (F (mkO tag None []) (o1 :: os) [] false (conj eq_refl eq_refl)) as (o2 & d2 & t2 & E2 & I2 & T2 & S2 & P2).
    destruct (flush_spec _ (o1 :: os) d2 _ I2) as (o3 & Fl3 & T3 & C3).
    set (e := Elem (o_tag o3) (o_text o3) (rev (o_children o3))).
    assert (IE : itertext e = flat_map chars_of cs) by (change (itertext e) with (content o3); rewrite C3, S2; reflexivity).
    exists (mkO (o_tag o1) (o_text o1) ((e, None) :: o_children o1)), [], true.
    rewrite feed_all_app, E2. cbn [feed_all feed]. rewrite Fl3. cbn [b_stack b_data fst].
    split; [reflexivity|]. split; [cbn; eauto|]. split; [exact T1|]. split.
    + unfold seen at 1, content. cbn [o_text o_children rev]. rewrite kids_app. unfold kids at 2. cbn [flat_map fst snd otext concat]. rewrite IE, !app_nil_r, app_assoc.
      fold (content o1). rewrite C1. reflexivity.
    + cbn [app]. rewrite iterparse_app, E2, page_texts_app, P2. f_equal. cbn [iterparse feed]. rewrite Fl3. cbn [b_stack b_data app]. fold e.
      unfold page_texts. cbn [filter]. change (elem_tag e) with (o_tag o3). replace (o_tag o3) with tag by (rewrite T3, T2; reflexivity).
      rewrite (eqb_string_dec tag [e] []). destruct (string_dec _ _); [|reflexivity]. cbn [map]. rewrite IE. reflexivity.
  - exists o, (data ++ [t]), tail. cbn. split; [reflexivity|]. split; [exact I|]. split; [reflexivity|]. split; [|reflexivity].
    unfold seen. rewrite concat_app. cbn. rewrite app_nil_r, app_assoc. reflexivity.
  - exists o, data, tail. cbn. rewrite app_nil_r. auto.
Qed.
Lemma flush_tags b : map o_tag (b_stack (flush b)) = map o_tag (b_stack b).
Proof.
  unfold flush. destruct (b_data b); [reflexivity|]. destruct (b_stack b) as [|o os]; [reflexivity|]. cbn. f_equal.
  destruct (b_tail b); [|reflexivity]. destruct (o_children o) as [|[x y] cs]; reflexivity.
Qed.
Lemma closed_count l : forall b, List.length (page_texts (iterparse b l)) = closed (map o_tag (b_stack b)) l.
Proof.
  induction l as [|k l IH]; intros b; [reflexivity|]. destruct k as [tag|t| |]; cbn [iterparse feed].
  - cbn [app]. rewrite IH. cbn [b_stack map o_tag closed]. rewrite flush_tags. reflexivity.
  - cbn [app]. rewrite IH. destruct b as [[|o os] d t']; reflexivity.
  - rewrite <- (flush_tags b). destruct (b_stack (flush b)) as [|o os] eqn:E.
    + cbn [app]. rewrite IH, E. reflexivity.
    + rewrite page_texts_app, app_length, IH. cbn [b_stack map closed]. f_equal.
      * unfold page_texts. cbn [filter elem_tag]. rewrite (eqb_string_dec (o_tag o)). destruct (string_dec _ _); reflexivity.
      * destruct os as [|p os]; reflexivity.
  - cbn [app]. rewrite IH. destruct b as [[|o os] d t']; reflexivity.
Qed.
Lemma root_pages pre tag cs : page_texts (iterparse b_new (repeat XOther pre ++ tokens (Node tag cs))) = pages (Node tag cs).
Proof.
  assert (E : forall b l, iterparse b (repeat XOther pre ++ l) = iterparse b l) by (intros b l; induction pre as [|n IH]; [reflexivity|exact IH]).
  rewrite E. cbn [tokens iterparse]. unfold feed at 1. cbn [flush b_new b_data b_stack app].
  assert (F : forall l o os data tail, open_ok o tail -> exists o' data' tail', feed_all (mkB (o :: os) data tail) (flat_map tokens l) = mkB (o' :: os) data' tail' /\ open_ok o' tail' /\ o_tag o' = o_tag o /\
        seen o' data' = seen o data ++ flat_map chars_of l /\ page_texts (iterparse (mkB (o :: os) data tail) (flat_map tokens l)) = flat_map pages l).
  { intros l. induction l as [|y l IHc]; intros o os data tail I.
    - exists o, data, tail. cbn. rewrite app_nil_r. auto.
    - destruct (feed_tree y o os data tail I) as (o1 & d1 & t1 & E1 & I1 & T1 & S1 & P1).
      destruct (IHc o1 os d1 t1 I1) as (o2 & d2 & t2 & E2 & I2 & T2 & S2 & P2).
      exists o2, d2, t2. cbn [flat_map]. rewrite feed_all_app, E1, iterparse_app, E1, page_texts_app, P1, P2, S2, S1, app_assoc. split; [exact E2|]. split; [exact I2|]. split; [congruence|]. auto. }
  destruct (F cs (mkO tag None []) [] [] false (conj eq_refl eq_refl)) as (o2 & d2 & t2 & E2 & I2 & T2 & S2 & P2).
  destruct (flush_spec _ [] d2 _ I2) as (o3 & Fl3 & T3 & C3).
  rewrite iterparse_app, E2, page_texts_app, P2. cbn [pages]. f_equal. cbn [iterparse feed]. rewrite Fl3. cbn [b_stack b_data app].
  set (e := Elem (o_tag o3) (o_text o3) (rev (o_children o3))).
  assert (IE : itertext e = flat_map chars_of cs) by (change (itertext e) with (content o3); rewrite C3, S2; reflexivity).
  unfold page_texts. cbn [filter]. change (elem_tag e) with (o_tag o3). replace (o_tag o3) with tag by (rewrite T3, T2; reflexivity).
  rewrite (eqb_string_dec tag [e] []). destruct (string_dec _ _); [|reflexivity]. cbn [map]. rewrite IE. reflexivity.
Qed.
Lemma extract_pages l e : extractMediawiki (l, e) = (flat_map (fun t => json_dump t ++ [10%N]) (page_texts (iterparse b_new l)), e).
Proof.
  unfold extractMediawiki, page_texts. cbn [fst snd]. f_equal. induction (iterparse b_new l) as [|x es IH]; [reflexivity|]. cbn [flat_map filter].
  rewrite IH. unfold page at 1. destruct (eqb (elem_tag x) wikitag); reflexivity.
Qed.

(** One line is written for every page, with its text in the form of JSON. *)
Theorem C88_pages pre tag cs : exists ls, extractMediawiki (repeat XOther pre ++ tokens (Node tag cs), None) = (concat ls, None) /\
  stdin_lines [] (concat ls) = ls /\
  Forall2 (fun l t => exists s, l = 34%N :: s ++ [34; 10]%N /\ spelled t s /\ ~ In 10%N s /\ ~ In 13%N s) ls (pages (Node tag cs)).
Proof.
  exists (map (fun t => json_dump t ++ [10%N]) (pages (Node tag cs))). rewrite extract_pages, root_pages. rewrite <- flat_map_concat_map. split; [reflexivity|]. split; [apply stdin_pages|].
  induction (pages (Node tag cs)) as [|t ts IH]; [constructor|]. constructor; [|exact IH].
  exists (flat_map json_escape t). unfold json_dump. split; [cbn [app]; rewrite <- app_assoc; reflexivity|]. split; [apply dump_spelled|].
  destruct (dump_no_break t) as [A B]. split; intros H; [apply A|apply B]; right; apply in_or_app; left; exact H.
Qed.
(** A worker types the text of each page: after replacing characters as for any text. *)
Theorem C88_typed other pre tag cs : forall out, extractMediawiki (repeat XOther pre ++ tokens (Node tag cs), None) = (out, None) ->
  map (item_texts [filterJson other]) (stdin_lines [] out) = map (fun t => ([prepare t], None)) (pages (Node tag cs)).
Proof.
  intros out H. rewrite extract_pages, root_pages in H. injection H as <-. rewrite stdin_pages, map_map. apply map_ext. intros t.
  unfold item_texts. cbn [apply_gen gchain fst snd filterJson]. rewrite C88_written. cbn. reflexivity.
Qed.
(** If the dump is cut off anywhere, all pages whose end tag was read are written. *)
Theorem C88_cut pre tag cs n e :
  let l := firstn n (repeat XOther pre ++ tokens (Node tag cs)) in
  extractMediawiki (l, Some e) = (flat_map (fun t => json_dump t ++ [10%N]) (firstn (closed [] l) (pages (Node tag cs))), Some e).
Proof.
  intros l. rewrite extract_pages, <- (root_pages pre tag cs). do 2 f_equal. subst l. set (l := repeat XOther pre ++ tokens (Node tag cs)).
  replace (iterparse b_new l) with (iterparse b_new (firstn n l ++ skipn n l)) by (rewrite firstn_skipn; reflexivity).
  rewrite iterparse_app, page_texts_app.
  change (closed [] (firstn n l)) with (closed (map o_tag (b_stack b_new)) (firstn n l)). rewrite <- closed_count.
  rewrite firstn_app, Nat.sub_diag, firstn_all, app_nil_r. reflexivity.
Qed.
(** An article without text, given as null by the extractor used for the report
    (gen.sh: write-arwiki), stops the worker with a TypeError. *)
Theorem C88_null other w w' : blank w -> blank w' -> item_texts [filterJson other] (w ++ lit "null" ++ w') = ([], Some TypeError).
Proof.
  intros B B'. unfold item_texts. cbn [apply_gen gchain fst snd filterJson].
  replace (json_loads other (w ++ lit "null" ++ w')) with (Ok JNull); [reflexivity|].
  unfold json_loads. rewrite (skip_blank _ B). cbn [skip_space lit map list_ascii_of_string app]. change (json_space (N_of_ascii "n")) with false. cbn match.
  change (N_of_ascii "n") with 110%N. cbn match. change (KlcModel.starts _ _) with true. cbn match.
  cbn [skipn]. rewrite <- (app_nil_r w'), (skip_blank _ B'). reflexivity.
Qed.

(** Lines of the standard input: whatever their ends are, they become newlines. *)
Lemma lines_concat n : forall t cur, List.length t <= n -> concat (stdin_lines cur t) = rev cur ++ map (fun c => if (c =? 13)%N then 10%N else c) (replace_crlf t).
Proof.
  induction n as [|n IH]; intros t cur L; (destruct t as [|c t]; [cbn; destruct cur; cbn; rewrite ?app_nil_r; reflexivity|]); cbn [List.length] in L; [lia|].
  cbn [stdin_lines]. destruct (N.eqb_spec c 10) as [->|N10].
  - cbn [concat]. rewrite (IH t []) by lia. cbn [rev app replace_crlf map]. rewrite <- app_assoc. reflexivity.
  - destruct (N.eqb_spec c 13) as [->|N13].
    + cbn [concat]. destruct t as [|d t]; [cbn; rewrite app_nil_r; reflexivity|]. cbn [List.length] in L. destruct (N.eqb_spec d 10) as [->|Nd].
      * rewrite (IH t []) by lia. cbn [rev app replace_crlf map]. rewrite <- app_assoc. reflexivity.
      * rewrite (IH (d :: t) []) by (cbn [List.length]; lia). cbn [rev app]. rewrite <- app_assoc. f_equal. cbn [app].
        replace (replace_crlf (13%N :: d :: t)) with (13%N :: replace_crlf (d :: t)); [reflexivity|].
        cbn [replace_crlf]. destruct d as [|p]; [reflexivity|]. do 4 (destruct p as [p|p|]; try reflexivity). contradiction.
    + rewrite (IH t (c :: cur)) by lia. cbn [rev]. rewrite <- app_assoc. f_equal. cbn [app].
      replace (replace_crlf (c :: t)) with (c :: replace_crlf t); [cbn [map]; apply N.eqb_neq in N13; rewrite N13; reflexivity|].
      destruct c as [|p]; [reflexivity|]. do 4 (destruct p as [p|p|]; try reflexivity). contradiction.
Qed.
Definition is_line (l : text) : Prop := exists u, l = u ++ [10%N] /\ ~ In 10%N u /\ ~ In 13%N u.
Lemma lines_shape n : forall t cur, List.length t <= n -> ~ In 10%N cur -> ~ In 13%N cur ->
  exists ls u, stdin_lines cur t = ls ++ u /\ Forall is_line ls /\ (u = [] \/ exists v, u = [v] /\ v <> [] /\ ~ In 10%N v /\ ~ In 13%N v).
Proof.
  assert (Line : forall cur, ~ In 10%N cur -> ~ In 13%N cur -> is_line (rev (10%N :: cur))).
  { intros cur A B. exists (rev cur). cbn [rev]. split; [reflexivity|]. rewrite <- !in_rev. auto. }
  induction n as [|n IH]; intros t cur L A B; (destruct t as [|c t]; [|cbn [List.length] in L]); [| lia | |].
  1, 2: (destruct cur as [|x cur]; [exists [], []; cbn; auto|exists [], [rev (x :: cur)]; split; [reflexivity|]; split; [constructor|]; right; eexists; split; [reflexivity|]; rewrite <- !in_rev; split; [|auto]; intros E; apply (f_equal (@List.length N)) in E; rewrite rev_length in E; discriminate E]).
  assert (Next : forall t', List.length t' <= n -> exists ls u, rev (10%N :: cur) :: stdin_lines [] t' = ls ++ u /\ Forall is_line ls /\ (u = [] \/ exists v, u = [v] /\ v <> [] /\ ~ In 10%N v /\ ~ In 13%N v)).
  { intros t' L'. destruct (IH t' [] L' (fun x => x) (fun x => x)) as (ls & u & -> & F & U). exists (rev (10%N :: cur) :: ls), u. split; [reflexivity|]. split; [constructor; [apply (Line _ A B)|exact F]|exact U]. }
  cbn [stdin_lines]. destruct (N.eqb_spec c 10) as [->|N10]; [apply Next; lia|]. destruct (N.eqb_spec c 13) as [->|N13].
  - destruct t as [|d t]; [apply Next; lia|]. cbn [List.length] in L. destruct (d =? 10)%N; apply Next; cbn [List.length]; lia.
  - apply IH; [lia| |]; intros [E|E]; [apply N10, E|apply A, E|apply N13, E|apply B, E].
Qed.
Theorem C88_lines t : concat (stdin_lines [] t) = map (fun c => if (c =? 13)%N then 10%N else c) (replace_crlf t) /\
  exists ls u, stdin_lines [] t = ls ++ u /\ Forall is_line ls /\ (u = [] \/ exists v, u = [v] /\ v <> [] /\ ~ In 10%N v /\ ~ In 13%N v).
Proof. split; [apply (lines_concat (n := List.length t)); lia|apply (@lines_shape (List.length t)); [lia|intros []|intros []]]. Qed.
(** A list of texts is typed one after another; only elements of one character are
    replaced. *)
Theorem C88_list other s ts : json_loads other s = Ok (JArr (map JStr ts)) ->
  item_texts [filterJson other] s = ([replace_crlf (flat_map (fun t => match t with [c] => mapChars charMap [c] | _ => t end) ts)], None).
Proof.
  intros H. unfold item_texts. cbn [apply_gen gchain fst snd filterJson]. rewrite H. cbn [gchain app]. unfold worker_text. cbn [mapChars_value].
  assert (E : mapM mapChars_elem (map JStr ts) = Ok (map (fun t => match t with [c] => mapChars charMap [c] | _ => t end) ts)).
  { clear. induction ts as [|t ts IH]; [reflexivity|]. cbn [map mapM]. rewrite IH. destruct t as [|c [|d t]]; reflexivity. }
  rewrite E. cbn [bind]. rewrite <- flat_map_concat_map. reflexivity.
Qed.

(** * Examples *)
Example C88_lines_example : stdin_lines [] (lit "a" ++ [13; 10; 13; 98; 10; 10]%N ++ lit "cd") = [lit "a" ++ [10%N]; [10%N]; lit "b" ++ [10%N]; [10%N]; lit "cd"].
Proof. reflexivity. Qed.
Example C88_list_example : item_texts [filterJson (fun _ => Ok (JArr [JStr (lit "1"); JStr (lit "23")]))] (lit "['1', '23']") = ([1633%N :: lit "23"], None).
Proof. vm_compute. reflexivity. Qed.
Definition ex_doc : xml := Node "mediawiki" [Node "page" [Node "title" [Chars (lit "t")]; Node wikitag [Chars (lit "a""b"); Comment; Chars [10; 92; 1574]%N; Node "b" [Chars (lit "c")]; Chars (lit "d")]]; Chars (lit " "); Node wikitag []].
Example C88_example : pages ex_doc = [lit "a""b" ++ [10; 92; 1574]%N ++ lit "cd"; []] /\
  extractMediawiki (XOther :: tokens ex_doc, None) = (lit """a\""b\n\\" ++ [1574%N] ++ lit "cd""" ++ [10%N] ++ lit """""" ++ [10%N], None) /\
  map (item_texts [filterJson (fun _ => Raise ValueError)]) (stdin_lines [] (fst (extractMediawiki (XOther :: tokens ex_doc, None)))) =
    [([lit "a""b" ++ [10; 92; 1610; 1620]%N ++ lit "cd"], None); ([[]], None)] /\
  fst (extractMediawiki (firstn 12 (XOther :: tokens ex_doc), Some PlainException)) = [] /\
  closed [] (firstn 15 (XOther :: tokens ex_doc)) = 1.
Proof. repeat split; vm_compute; reflexivity. Qed.
Example C88_surrogates : spelled [128512; 233]%N (lit "\ud83D\uDe00\u00e9") /\
  json_loads (fun _ => Raise ValueError) (lit " ""\ud83D\uDe00\u00e9""") = Ok (JStr [128512; 233]%N).
Proof.
  split; [|vm_compute; reflexivity].
  apply (@Sp_cons 128512 [233%N] (lit "\ud83D\uDe00") (lit "\u00e9" ++ [])); [|apply Sp_cons; [|constructor]].
  - apply (@Pair 128512 0xD83D (lit "d83D") 0xDE00 (lit "De00")); try (apply four_val; repeat eexists; vm_compute; reflexivity); vm_compute; auto; split; congruence.
  - apply (@Code 233 (lit "00e9")); [apply four_val; repeat eexists; vm_compute; reflexivity|]. intros [H _]. apply H. reflexivity.
Qed.

Print Assumptions C88_read.
Print Assumptions C88_read_only.
Print Assumptions C88_written.
Print Assumptions C88_pages.
Print Assumptions C88_typed.
Print Assumptions C88_cut.
Print Assumptions C88_null.
Print Assumptions C88_lines.
Print Assumptions C88_list.
