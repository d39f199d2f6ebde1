(** Lemmas about word lists. *)
From Coq Require Import Ascii Lia.
From Verif Require Import Base LayoutModel StatsModel PlotModel PlotProofs KlcModel CsrcModel WordlistModel FilesSpec FilesProofs WordlistSpec.
Open Scope string_scope.
Open Scope list_scope.

(** * Reading *)
Lemma split_line f p a c r : free p a -> p c = true -> List.length (a ++ c :: r) < f -> split f p (a ++ c :: r) = a :: split (S (List.length r)) p r.
Proof. intros F C L. rewrite (split_fuel p f (S (List.length (a ++ c :: r)))) by lia. apply split_at; assumption. Qed.
Lemma file_lines_at a c r : free is_eol a -> is_eol c = true -> file_lines (a ++ c :: r) = a :: file_lines r.
Proof.
  intros F C. unfold file_lines. rewrite split_at by assumption. remember (split (S (List.length r)) is_eol r) as l. destruct a as [|x a]; [|reflexivity].
  cbn [drop_last]. destruct l; [|reflexivity]. exfalso. cbn [split] in Heql. destruct (cut is_eol r) as [? [?|]]; discriminate Heql.
Qed.
Lemma digits_free p n : (forall c, (48 <= c <= 57)%N -> p c = false) -> free p (dec n).
Proof. intros H c I. apply H. apply (dec_digit n c I). Qed.
Lemma eol_free n : free is_eol (dec n).
Proof. apply digits_free. intros c C. unfold is_eol. apply orb_false_iff. split; apply N.eqb_neq; lia. Qed.
Lemma sep_free n : free is_sep (dec n).
Proof. apply digits_free. intros c C. apply N.eqb_neq. lia. Qed.
Lemma zdec_dec z : (0 <= z)%Z -> zdec z = dec (Z.to_N z).
Proof. intros H. unfold zdec. destruct (Z.ltb_spec z 0); [lia|reflexivity]. Qed.
Lemma head_lines' now r : (0 <= now)%Z -> file_lines (wordlistHead now ++ r) =
  lit "# auto-generated by lulua" :: (lit "dictionary=main:ar,locale=ar,description=Arabic wordlist,date=" ++ dec (Z.to_N now) ++ lit ",version=1") :: file_lines r.
Proof.
  intros H. unfold wordlistHead. rewrite zdec_dec by exact H. unfold nl.
  replace ((lit "# auto-generated by lulua" ++ [10%N] ++ lit "dictionary=main:ar,locale=ar,description=Arabic wordlist,date=" ++ dec (Z.to_N now) ++ lit ",version=1" ++ [10%N]) ++ r)
    with (lit "# auto-generated by lulua" ++ 10%N :: (lit "dictionary=main:ar,locale=ar,description=Arabic wordlist,date=" ++ dec (Z.to_N now) ++ lit ",version=1") ++ 10%N :: r)
    by (rewrite <- !app_assoc; reflexivity).
  rewrite file_lines_at by (reflexivity || (apply lit_free; reflexivity)). rewrite file_lines_at; [reflexivity| |reflexivity].
  apply free_app; [apply lit_free; reflexivity|]. apply free_app; [apply eol_free|apply lit_free; reflexivity].
Qed.
Lemma items_at a c r x l : free is_sep a -> is_sep c = true -> item a = Some x -> items r = Some l -> items (a ++ c :: r) = Some (x :: l).
Proof. intros F C E El. unfold items in *. rewrite split_at by assumption. cbn [all_of]. rewrite E, El. reflexivity. Qed.
Lemma items_one a x : free is_sep a -> item a = Some x -> items a = Some [x].
Proof. intros F E. unfold items. rewrite split_none by exact F. cbn [all_of]. rewrite E. reflexivity. Qed.
Lemma item_at k v : free is_equals k -> item (k ++ 61%N :: v) = Some (k, v).
Proof. intros F. unfold item. rewrite cut_at by (exact F || reflexivity). reflexivity. Qed.
Definition attributes (now : Z) : list (text * text) :=
  [(lit "dictionary", lit "main:ar"); (lit "locale", lit "ar"); (lit "description", lit "Arabic wordlist"); (lit "date", dec (Z.to_N now)); (lit "version", lit "1")].
Lemma head_items now : items (lit "dictionary=main:ar,locale=ar,description=Arabic wordlist,date=" ++ dec (Z.to_N now) ++ lit ",version=1") = Some (attributes now).
Proof.
  change (lit "dictionary=main:ar,locale=ar,description=Arabic wordlist,date=") with
    (lit "dictionary=main:ar" ++ [44%N] ++ lit "locale=ar" ++ [44%N] ++ lit "description=Arabic wordlist" ++ [44%N] ++ lit "date=").
  rewrite <- !app_assoc. cbn [app].
  apply items_at; [apply lit_free; reflexivity|reflexivity|reflexivity|]. apply items_at; [apply lit_free; reflexivity|reflexivity|reflexivity|].
  apply items_at; [apply lit_free; reflexivity|reflexivity|reflexivity|].
  change (lit ",version=1") with (44%N :: lit "version=1"). rewrite app_assoc. apply items_at; [|reflexivity| |apply items_one; [apply lit_free; reflexivity|reflexivity]].
  - apply free_app; [apply lit_free; reflexivity|apply sep_free].
  - change (lit "date=" ++ dec (Z.to_N now)) with (lit "date" ++ 61%N :: dec (Z.to_N now)). apply item_at. apply lit_free. reflexivity.
Qed.
Lemma dec_last n : exists a d, dec n = a ++ [d] /\ (48 <= d <= 57)%N.
Proof.
  pose proof (dec_nonempty n) as N. destruct (exists_last N) as (a & d & E). exists a, d. split; [exact E|]. apply (dec_digit n). rewrite E. apply in_or_app. right. left. reflexivity.
Qed.
Lemma trim_line w n : trim (lit " word=" ++ w ++ lit ",f=" ++ dec n) = lit "word=" ++ w ++ lit ",f=" ++ dec n.
Proof.
  unfold trim. replace (ltrim (lit " word=" ++ w ++ lit ",f=" ++ dec n)) with (lit "word=" ++ w ++ lit ",f=" ++ dec n) by reflexivity.
  destruct (dec_last n) as (a & d & -> & D). rewrite !app_assoc, rev_app_distr. cbn [rev app ltrim].
  destruct (N.leb_spec d 32); [lia|]. cbn [rev]. rewrite rev_involutive. reflexivity.
Qed.
(** Words which do not confuse the reader *)
Definition plain_word (w : text) : Prop := forall c, In c w -> ~ In c [10; 13; 44]%N.
Lemma word_read w f : plain_word w -> (0 <= f <= 255)%Z -> read_word (lit " word=" ++ w ++ lit ",f=" ++ zdec f) = Some (w, f).
Proof.
  intros P R. rewrite zdec_dec by lia. unfold read_word. rewrite trim_line.
  assert (E : items (lit "word=" ++ w ++ lit ",f=" ++ dec (Z.to_N f)) = Some [(lit "word", w); (lit "f", dec (Z.to_N f))]).
  { change (lit ",f=" ++ dec (Z.to_N f)) with (44%N :: lit "f=" ++ dec (Z.to_N f)). rewrite app_assoc. apply items_at; [|reflexivity| |].
    - apply free_app; [apply lit_free; reflexivity|]. intros c I. apply N.eqb_neq. intros ->. apply (P 44%N I). cbn. auto.
    - change (lit "word=" ++ w) with (lit "word" ++ 61%N :: w). apply item_at, lit_free. reflexivity.
    - apply items_one; [apply free_app; [apply lit_free; reflexivity|apply sep_free]|]. change (lit "f=" ++ dec (Z.to_N f)) with (lit "f" ++ 61%N :: dec (Z.to_N f)). apply item_at, lit_free. reflexivity. }
  rewrite E. pose proof (dec_nonempty (Z.to_N f)) as N. pose proof (dec_number (Z.to_N f)) as D. destruct (dec (Z.to_N f)) as [|x t]; [congruence|].
  rewrite D. replace (eqb (lit "word") (lit "word") && eqb (lit "f") (lit "f")) with true by reflexivity.
  destruct (N.leb_spec (Z.to_N f) 255); [|lia]. rewrite Z2N.id by lia. reflexivity.
Qed.
Definition linesOf (l : list (text * Z)) : list text := map (fun wf : text * Z => lit " word=" ++ fst wf ++ lit ",f=" ++ zdec (snd wf)) l.
Lemma words_lines l : Forall (fun wf : text * Z => plain_word (fst wf) /\ (0 <= snd wf)%Z) l -> file_lines (flat_map (fun wf : text * Z => wordLine (fst wf) (snd wf)) l) = linesOf l.
Proof.
  intros H. induction H as [|[w f] l [P F] H IH]; [reflexivity|]. cbn [flat_map linesOf map fst snd] in *. unfold wordLine, nl.
  match goal with |- context [(lit " word=" ++ w ++ lit ",f=" ++ zdec f ++ [10%N]) ++ ?r] =>
    replace ((lit " word=" ++ w ++ lit ",f=" ++ zdec f ++ [10%N]) ++ r) with ((lit " word=" ++ w ++ lit ",f=" ++ zdec f) ++ 10%N :: r) by (rewrite <- !app_assoc; reflexivity) end.
  rewrite file_lines_at; [f_equal; exact IH| |reflexivity]. apply free_app; [apply lit_free; reflexivity|]. apply free_app; [|apply free_app; [apply lit_free; reflexivity|rewrite zdec_dec by exact F; apply eol_free]].
  intros c I. unfold is_eol. apply orb_false_iff. split; apply N.eqb_neq; intros ->; apply (P _ I); cbn; auto.
Qed.
Lemma list_read now l : (0 <= now)%Z -> Forall (fun wf : text * Z => plain_word (fst wf) /\ (0 <= snd wf <= 255)%Z) l ->
  read_list (wordlistHead now ++ flat_map (fun wf : text * Z => wordLine (fst wf) (snd wf)) l) = Some (attributes now, l).
Proof.
  intros N H. unfold read_list. rewrite head_lines', words_lines by (exact N || (eapply Forall_impl; [|exact H]; cbn beta; intros x X; split; [apply X|apply X])).
  replace (filter _ _) with ((lit "dictionary=main:ar,locale=ar,description=Arabic wordlist,date=" ++ dec (Z.to_N now) ++ lit ",version=1") :: linesOf l); cycle 1.
  { cbn [filter]. replace (negb (is_comment (lit "# auto-generated by lulua"))) with false by reflexivity. cbv iota.
    replace (negb (is_comment (lit "dictionary=main:ar,locale=ar,description=Arabic wordlist,date=" ++ dec (Z.to_N now) ++ lit ",version=1"))) with true by reflexivity. cbv iota. f_equal.
    clear. induction l as [|x l IH]; [reflexivity|]. cbn [linesOf map filter]. replace (negb _) with true by reflexivity. cbv iota. f_equal. exact IH. }
  rewrite head_items. replace (all_of read_word (linesOf l)) with (Some l); [reflexivity|]. symmetry. clear - H.
  induction H as [|[w f] l [P F] H IH]; [reflexivity|]. cbn [linesOf map all_of fst snd] in *. rewrite word_read by assumption. unfold linesOf in IH. rewrite IH. reflexivity.
Qed.
Lemma wordLines_ok total l : forall r, mapM (fun wc : text * Z => do f <- f_value (snd wc) total; Ok (fst wc, f)) l = Ok r ->
  wordLines total l = (flat_map (fun wf : text * Z => wordLine (fst wf) (snd wf)) r, None).
Proof.
  induction l as [|[w c] l IH]; intros r E; cbn [mapM wordLines fst snd] in *; [injection E as <-; reflexivity|].
  destruct (f_value c total) as [f|]; [|discriminate E]. cbn [bind] in E. destruct (mapM _ l) as [r'|] eqn:E'; [|discriminate E]. cbn [bind] in E. injection E as <-.
  rewrite (IH r' eq_refl). reflexivity.
Qed.
Lemma wordLines_fail total l : forall e, mapM (fun wc : text * Z => do f <- f_value (snd wc) total; Ok (fst wc, f)) l = Raise e -> snd (wordLines total l) = Some e.
Proof.
  induction l as [|[w c] l IH]; intros e E; cbn [mapM wordLines fst snd] in *; [discriminate E|].
  destruct (f_value c total) as [f|]; [|injection E as <-; reflexivity]. cbn [bind] in E. destruct (mapM _ l) as [r'|] eqn:E'; cbn [bind] in E; [discriminate E|]. injection E as <-.
  specialize (IH _ eq_refl). destruct (wordLines total l). exact IH.
Qed.

(** * Words of statistics *)
Section Letters.
  Variable letter : N -> bool.
  Definition lettered (w : text) : Prop := w <> [] /\ forallb letter w = true.
  Definition good (d : list (text * Z)) : Prop := forall w n, In (w, n) d -> lettered w /\ (0 < n)%Z.
  Lemma good_dset d k n : good d -> lettered k -> (0 < n)%Z -> good (dset d k n).
  Proof. intros G L N w m I. apply In_dset_cases in I as [I|I]; [injection I as -> ->; auto|exact (G _ _ I)]. Qed.
  Lemma good_get d k n : good d -> dget d k = Some n -> (0 < n)%Z.
  Proof. intros G E. apply dget_In in E. apply (G _ _ E). Qed.
  Lemma good_cinc d w : good d -> lettered w -> good (cinc d w).
  Proof. intros G L. unfold cinc, cadd. apply good_dset; [exact G|exact L|]. unfold cget. destruct (dget d w) as [n|] eqn:E; [apply (good_get _ _ _ G) in E; lia|lia]. Qed.
  Lemma good_update a b : good a -> good b -> good (updateCounter a b).
  Proof.
    intros Ga Gb. unfold updateCounter, updateDictOp. revert a Ga. induction b as [|[k n] b IH]; intros a Ga; cbn [fold_left]; [exact Ga|].
    apply IH; [intros w m I; apply Gb; right; exact I|]. destruct (Gb k n (or_introl eq_refl)) as [Lk Pn]. cbn [fst snd].
    destruct (dget a k) as [x|] eqn:E; apply good_dset; try assumption. apply (good_get _ _ _ Ga) in E. lia.
  Qed.
  Definition wgood (s : StatsModel.words) : Prop := good (w_words s) /\ forallb letter (w_cur s) = true.
  Lemma wgood_char s c : wgood s -> wgood (words_char letter s c).
  Proof.
    intros [G C]. unfold words_char. destruct (letter c) eqn:L; [split; [exact G|cbn [w_cur]; rewrite forallb_app, C; cbn; rewrite L; reflexivity]|].
    destruct (w_cur s) as [|x t] eqn:E; [split; [exact G|rewrite E; reflexivity]|]. split; [|reflexivity]. cbn [w_words]. apply good_cinc; [exact G|]. split; [discriminate|exact C].
  Qed.
  Lemma wgood_process L s e s' : wgood s -> words_process letter L s e = Ok s' -> wgood s'.
  Proof.
    intros G E. destruct e; cbn [words_process] in E.
    - apply bind_inv in E as ([t|] & _ & E); [|discriminate E]. injection E as <-. revert s G. induction t as [|x t IH]; intros s G; [exact G|]. cbn [fold_left]. apply IH, wgood_char, G.
    - injection E as <-. split; [apply G|reflexivity].
    - discriminate E.
  Qed.
End Letters.
