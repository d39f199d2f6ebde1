(** Lemmas about the KLC import. *)
From Verif Require Import Base LayoutModel LayoutSpec LayoutProofs KlcModel KlcSpec.
Open Scope list_scope.

(** * Lines *)
Lemma is_space_iff c : is_space c = true <-> In c white_space.
Proof.
  unfold is_space, white_space. rewrite !orb_true_iff, !andb_true_iff, !N.eqb_eq, !N.leb_le. cbn [In]. lia.
Qed.
Lemma is_space_false c : is_space c = false <-> ~ In c white_space.
Proof. rewrite <- is_space_iff. destruct (is_space c); intuition congruence. Qed.
Lemma upto_skip p0 p a c : Forall (fun x => x <> p0) a ->
  upto (p0 :: p) (a ++ c) = option_map (fun u => a ++ u) (upto (p0 :: p) c).
Proof.
  induction 1 as [|x a Hx _ IH]; cbn [app]; [destruct (upto (p0 :: p) c); reflexivity|].
  cbn [upto starts]. rewrite (proj2 (N.eqb_neq p0 x)) by congruence. cbn [andb].
  rewrite IH. destruct (upto (p0 :: p) c); reflexivity.
Qed.
Lemma upto_none p0 p a : Forall (fun x => x <> p0) a -> upto (p0 :: p) a = None.
Proof. intros Ha. rewrite <- (app_nil_r a), upto_skip by exact Ha. reflexivity. Qed.
Lemma upto_some p x y : exists u, upto p (x ++ p ++ y) = Some u.
Proof.
  induction x as [|c x [u IH]].
  - exists []. assert (H : forall q, starts q (q ++ y) = true).
    { induction q; cbn; [reflexivity|]. rewrite N.eqb_refl. exact IHq. }
    cbn [app]. destruct p as [|a p]; [destruct y; reflexivity|].
    specialize (H (a :: p)). cbn [app upto] in *. rewrite H. reflexivity.
  - cbn [app upto]. destruct (starts p (c :: x ++ p ++ y)); [eauto|]. rewrite IH. eauto.
Qed.
Definition clear_of (a : text) : Prop := Forall (fun c => c <> 47%N) a /\ Forall (fun c => c <> 59%N) a.
Lemma strip_comment_remark a r : clear_of a -> remark r -> strip_comment (a ++ r) = a.
Proof.
  intros [H1 H2] Hr. unfold strip_comment. change (lit "//") with [47%N; 47%N]. change (lit ";") with [59%N].
  destruct Hr as [->|[[x ->]|(x & y & ->)]].
  - rewrite app_nil_r, upto_none by exact H1. reflexivity.
  - change (lit "//") with [47%N; 47%N]. rewrite upto_skip by exact H1. cbn. rewrite app_nil_r, upto_none by exact H2. reflexivity.
  - change (lit "//") with [47%N; 47%N]. change (lit ";") with [59%N]. rewrite upto_skip by exact H1.
    destruct (upto_some [47%N; 47%N] x y) as [u Hu].
    assert (E : upto [47%N; 47%N] ([59%N] ++ x ++ [47%N; 47%N] ++ y) = Some (59%N :: u)).
    { change ([59%N] ++ x ++ [47%N; 47%N] ++ y) with (59%N :: x ++ [47%N; 47%N] ++ y).
      cbn [upto starts]. rewrite Hu. reflexivity. }
    rewrite E. cbn [option_map]. rewrite upto_skip by exact H2. cbn. rewrite app_nil_r. reflexivity.
Qed.
Lemma blank_clear b : blank b -> clear_of b.
Proof.
  intros Hb. split; (eapply Forall_impl; [|exact Hb]); intros c Hc ->; apply is_space_iff in Hc; discriminate Hc.
Qed.
Lemma clear_app a b : clear_of a -> clear_of b -> clear_of (a ++ b).
Proof. intros [A1 A2] [B1 B2]. split; apply Forall_app; auto. Qed.
Lemma word_clear w : word w -> clear_of w.
Proof. intros [_ Hw]. split; (eapply Forall_impl; [|exact Hw]); cbn; intuition. Qed.
Lemma spaced_clear ws t : spaced ws t -> clear_of t.
Proof.
  induction 1 as [w Hw|w s ws t Hw _ Hs _ IH]; [apply word_clear, Hw|].
  apply clear_app; [apply word_clear, Hw|apply clear_app; [apply blank_clear, Hs|exact IH]].
Qed.
Lemma spaced_head ws t : spaced ws t -> exists c t', t = c :: t' /\ is_space c = false.
Proof.
  assert (G : forall w, word w -> exists c t', w = c :: t' /\ is_space c = false).
  { intros [|c w] [Hn Hw]; [congruence|]. inversion Hw; subst. exists c, w. rewrite is_space_false. tauto. }
  destruct 1 as [w Hw|w s ws t Hw _ Hs _]; [auto|].
  destruct (G w Hw) as (c & t' & -> & Hc). exists c, (t' ++ s ++ t). auto.
Qed.
Lemma spaced_last ws t : spaced ws t -> exists t' d, t = t' ++ [d] /\ is_space d = false.
Proof.
  induction 1 as [w [Hn Hw]|w s ws t Hw _ Hs _ IH].
  - destruct (exists_last Hn) as (t' & d & ->). apply Forall_app in Hw as [_ Hd]. inversion Hd; subst. exists t', d. rewrite is_space_false. tauto.
  - destruct IH as (t' & d & -> & Hd). exists (w ++ s ++ t'), d. rewrite !app_assoc. auto.
Qed.
Lemma lstrip_blank b t : blank b -> lstrip (b ++ t) = lstrip t.
Proof. induction 1 as [|c b Hc _ IH]; cbn; [reflexivity|]. apply is_space_iff in Hc. rewrite Hc. exact IH. Qed.
Lemma lstrip_head c t : is_space c = false -> lstrip (c :: t) = c :: t.
Proof. intros Hc. cbn. rewrite Hc. reflexivity. Qed.
Lemma blank_rev b : blank b -> blank (rev b).
Proof. apply Forall_rev. Qed.
Lemma strip_blank b : blank b -> strip b = [].
Proof. intros Hb. unfold strip. rewrite <- (app_nil_r b), lstrip_blank by exact Hb. reflexivity. Qed.
Lemma strip_spaced b ws t b' : blank b -> spaced ws t -> blank b' -> strip (b ++ t ++ b') = t.
Proof.
  intros Hb Ht Hb'. unfold strip. rewrite lstrip_blank by exact Hb.
  destruct (spaced_head _ _ Ht) as (c & u & E & Hc).
  assert (E1 : lstrip (t ++ b') = t ++ b') by (rewrite E; cbn [app]; apply lstrip_head, Hc).
  rewrite E1, rev_app_distr, lstrip_blank by (apply blank_rev, Hb').
  destruct (spaced_last _ _ Ht) as (v & d & E2 & Hd). rewrite E2, rev_unit, lstrip_head by exact Hd.
  rewrite <- rev_unit, rev_involutive. reflexivity.
Qed.
Lemma split_word w t : Forall (fun c => is_space c = false) w -> w <> [] ->
  split_ws (w ++ t) = match split_ws t with f :: fs => (w ++ f) :: fs | [] => [w] end.
Proof.
  induction 1 as [|c w Hc Hw IH]; intros Hn; [congruence|]. cbn [app split_ws]. rewrite Hc.
  destruct w as [|d w]; [cbn [app]; destruct (split_ws t); reflexivity|].
  rewrite IH by discriminate. destruct (split_ws t); reflexivity.
Qed.
Lemma split_sep s c t : blank s -> s <> [] -> is_space c = false -> split_ws (s ++ c :: t) = [] :: split_ws (c :: t).
Proof.
  induction 1 as [|x s Hx Hs IH]; intros Hn Hc; [congruence|]. apply is_space_iff in Hx.
  destruct s as [|y s]; cbn [app].
  - cbn [split_ws]. rewrite Hx, Hc. reflexivity.
  - assert (Hy : is_space y = true) by (inversion Hs; apply is_space_iff; assumption).
    cbn [app] in IH. rewrite <- IH by (congruence || exact Hc).
    change (split_ws (x :: y :: s ++ c :: t)) with
      (if is_space x then (if is_space y then split_ws (y :: s ++ c :: t) else [] :: split_ws (y :: s ++ c :: t))
       else match split_ws (y :: s ++ c :: t) with f :: fs => (x :: f) :: fs | [] => [[x]] end).
    rewrite Hx, Hy. reflexivity.
Qed.
Lemma word_ns w : word w -> Forall (fun c => is_space c = false) w.
Proof. intros [_ Hw]. eapply Forall_impl; [|exact Hw]. cbn beta. intros c Hc. apply is_space_false. tauto. Qed.
Lemma split_spaced ws t : spaced ws t -> split_ws t = ws.
Proof.
  induction 1 as [w Hw|w s ws t Hw Hn Hs Ht IH].
  - rewrite <- (app_nil_r w) at 1. rewrite split_word by (apply word_ns, Hw || apply Hw). cbn. now rewrite app_nil_r.
  - rewrite split_word by (apply word_ns, Hw || apply Hw).
    destruct (spaced_head _ _ Ht) as (c & u & -> & Hc). rewrite split_sep by assumption. rewrite IH, app_nil_r. reflexivity.
Qed.
(** What the importer sees of a written line. *)
Definition seen (ws : list text) (line : text) : Prop :=
  strip (strip_comment line) = match ws with [] => [] | _ => strip (strip_comment line) end /\
  split_ws (strip (strip_comment line)) = match ws with [] => [[]] | _ => ws end /\
  (ws <> [] -> spaced ws (strip (strip_comment line))).
Lemma written_seen ws l : written ws l -> seen ws l.
Proof.
  unfold seen. destruct 1 as [b r Hb Hr|b ws t b' r Hb Ht Hb' Hr].
  - rewrite strip_comment_remark, strip_blank by auto using blank_clear. cbn. intuition.
  - rewrite !app_assoc, strip_comment_remark; [|repeat apply clear_app; eauto using blank_clear, spaced_clear|exact Hr].
    rewrite <- app_assoc, (strip_spaced _ _ _ _ Hb Ht Hb'), (split_spaced _ _ Ht).
    destruct ws; [inversion Ht|]. intuition.
Qed.
Lemma starts_iff p t : starts p t = true <-> exists x, t = p ++ x.
Proof.
  revert t; induction p as [|a p IH]; intros t; cbn; [split; eauto|].
  destruct t as [|b t]; [split; [discriminate|intros [x Hx]; discriminate]|].
  rewrite andb_true_iff, N.eqb_eq, IH. split.
  - intros [-> [x ->]]. eauto.
  - intros [x E]. inversion E; subst. eauto.
Qed.
Lemma upto_prefix p t u : upto p t = Some u -> exists x, t = u ++ x.
Proof.
  revert u; induction t as [|c t IH]; cbn; intros u.
  - destruct (starts p []); [intros E; inversion E; exists []; reflexivity|discriminate].
  - destruct (starts p (c :: t)); [intros E; inversion E; eexists; reflexivity|].
    destruct (upto p t) as [v|]; [|discriminate]. intros E; inversion E; subst.
    destruct (IH v eq_refl) as [x ->]. exists x. reflexivity.
Qed.
Lemma strip_comment_prefix l : exists x, l = strip_comment l ++ x.
Proof.
  unfold strip_comment. destruct (upto (lit "//") l) as [l1|] eqn:E1; [|exists []; now rewrite app_nil_r].
  destruct (upto_prefix _ _ _ E1) as [x ->]. destruct (upto (lit ";") l1) as [l2|] eqn:E2; [|eauto].
  destruct (upto_prefix _ _ _ E2) as [y ->]. exists (y ++ x). now rewrite app_assoc.
Qed.
Lemma lstrip_suffix t : exists x, t = x ++ lstrip t.
Proof.
  induction t as [|c t [x IH]]; cbn; [exists []; reflexivity|].
  destruct (is_space c); [|exists []; reflexivity]. exists (c :: x). cbn. congruence.
Qed.
Lemma strip_infix t : exists x y, t = x ++ strip t ++ y.
Proof.
  unfold strip. destruct (lstrip_suffix t) as [x Hx]. destruct (lstrip_suffix (rev (lstrip t))) as [y Hy].
  exists x, (rev y). apply (f_equal (@rev N)) in Hy. rewrite rev_involutive, rev_app_distr in Hy. congruence.
Qed.
Lemma not_contains_starts p l : ~ contains p l -> starts p (strip (strip_comment l)) = false.
Proof.
  intros Hn. destruct (starts p (strip (strip_comment l))) eqn:E; [|reflexivity].
  exfalso. apply Hn. apply starts_iff in E as [x E].
  destruct (strip_comment_prefix l) as [y Hy]. destruct (strip_infix (strip_comment l)) as (a & b & Hs).
  rewrite E in Hs. exists a, (x ++ b ++ y). rewrite Hy, Hs. now rewrite <- !app_assoc.
Qed.
Lemma lstrip_app_head a x : lstrip (a ++ x) = match lstrip a with [] => lstrip x | a' => a' ++ x end.
Proof.
  induction a as [|c a IH]; cbn; [reflexivity|]. destruct (is_space c); [exact IH|reflexivity].
Qed.
Lemma layout_line_starts l : layout_line l -> starts (lit "LAYOUT") (strip (strip_comment l)) = true.
Proof.
  intros (b & x & Hb & ->). apply starts_iff.
  assert (Hc : clear_of (b ++ lit "LAYOUT")).
  { apply clear_app; [apply blank_clear, Hb|]. split; repeat constructor; discriminate. }
  assert (E : exists y, strip_comment (b ++ lit "LAYOUT" ++ x) = b ++ lit "LAYOUT" ++ y).
  { destruct Hc as [H1 H2]. unfold strip_comment. change (lit "//") with [47%N; 47%N]. change (lit ";") with [59%N].
    rewrite app_assoc, upto_skip by exact H1.
    destruct (upto [47%N; 47%N] x) as [u|]; cbn [option_map]; [|exists x; now rewrite app_assoc].
    rewrite upto_skip by exact H2. destruct (upto [59%N] u) as [v|]; cbn [option_map]; [exists v|exists u]; now rewrite app_assoc. }
  destruct E as [y ->]. unfold strip. rewrite lstrip_blank by exact Hb.
  change (lstrip (lit "LAYOUT" ++ y)) with (lit "LAYOUT" ++ y). rewrite rev_app_distr, lstrip_app_head.
  destruct (lstrip (rev y)) as [|c y'] eqn:Ey.
  - exists []. reflexivity.
  - rewrite rev_app_distr, rev_involutive. eauto.
Qed.

(** * Rows *)
  Lemma put_spec ls i b c :
    put ls i b c = if Nat.ltb i (length ls) then Ok (firstn i ls ++ dset (nth i ls []) b c :: skipn (S i) ls) else Raise IndexError.
  Proof.
    revert i; induction ls as [|l ls IH]; intros i; cbn [put length]; [reflexivity|].
    destruct i as [|i]; [reflexivity|]. rewrite IH. change (Nat.ltb (S i) (S (length ls))) with (Nat.ltb i (length ls)).
    destruct (Nat.ltb i (length ls)); reflexivity.
  Qed.
  Lemma put_ok ls i b c ls' : put ls i b c = Ok ls' ->
    i < length ls /\ length ls' = length ls /\
    forall j b', dget (nth j ls' []) b' = if (Nat.eqb j i && eqb b' b)%bool then Some c else dget (nth j ls []) b'.
  Proof.
    revert i ls'; induction ls as [|l ls IH]; intros i ls'; cbn [put]; [discriminate|].
    destruct i as [|i].
    - intros E; inversion E; subst. split; [cbn; lia|]. split; [reflexivity|]. intros [|j] b'; cbn [nth Nat.eqb andb].
      + apply dget_dset.
      + reflexivity.
    - destruct (put ls i b c) as [r|] eqn:Er; cbn; [|discriminate]. intros E; inversion E; subst.
      destruct (IH _ _ Er) as (H1 & H2 & H3). split; [lia|]. split; [cbn; lia|].
      intros [|j] b'; cbn [nth Nat.eqb andb]; [reflexivity|apply H3].
  Qed.
  Definition at_ (k : nat) (code : list (option text)) (j : nat) : option text :=
    if Nat.leb k j then match nth_error code (j - k) with Some (Some t) => Some t | _ => None end else None.
  Lemma put_codes_gen b code k ls ls' :
    foldM (fun ls ic => match snd ic with Some c => put ls (fst ic) b c | None => Ok ls end)
      (combine (seq k (length code)) code) ls = Ok ls' ->
    length ls' = length ls /\
    (forall j b', dget (nth j ls' []) b' = match (if eqb b' b then at_ k code j else None) with Some t => Some t | None => dget (nth j ls []) b' end) /\
    (forall j t, at_ k code j = Some t -> j < length ls).
  Proof.
    revert k ls; induction code as [|c code IH]; intros k ls; cbn [length seq combine foldM].
    - intros E; inversion E; subst. split; [reflexivity|]. unfold at_. split.
      + intros j b'. destruct (eqb b' b), (Nat.leb k j); try reflexivity; destruct (j - k); reflexivity.
      + intros j t. destruct (Nat.leb k j); [destruct (j - k); discriminate|discriminate].
    - cbn [fst snd]. destruct (match c with Some c0 => put ls k b c0 | None => Ok ls end) as [ls1|] eqn:E1; cbn [bind]; [|discriminate].
      intros E. destruct (IH _ _ E) as (H1 & H2 & H3).
      assert (A : forall j, at_ k (c :: code) j = if Nat.eqb j k then c else at_ (S k) code j).
      { intros j. unfold at_. destruct (Nat.eqb_spec j k) as [->|Hn].
        - rewrite Nat.leb_refl, Nat.sub_diag. cbn. destruct c; reflexivity.
        - destruct (Nat.leb_spec k j), (Nat.leb_spec (S k) j); try lia; [|reflexivity].
          replace (j - k) with (S (j - S k)) by lia. reflexivity. }
      assert (A0 : at_ (S k) code k = None) by (unfold at_; destruct (Nat.leb_spec (S k) k); [lia|reflexivity]).
      destruct c as [t0|].
      + destruct (put_ok _ _ _ _ _ E1) as (P1 & P2 & P3). split; [lia|]. split.
        * intros j b'. rewrite H2, A, P3. destruct (eqb b' b), (Nat.eqb_spec j k) as [->|]; cbn [andb]; try reflexivity.
          rewrite A0. reflexivity.
        * intros j t. rewrite A. destruct (Nat.eqb_spec j k) as [->|]; [intros _; exact P1|]. intros Hj. apply H3 in Hj. lia.
      + inversion E1; subst. split; [exact H1|]. split.
        * intros j b'. rewrite H2, A. destruct (eqb b' b), (Nat.eqb_spec j k) as [->|]; try reflexivity. rewrite A0. reflexivity.
        * intros j t. rewrite A. destruct (Nat.eqb_spec j k) as [->|]; [discriminate|]. apply H3.
  Qed.
  Lemma put_codes_err b code k ls e :
    foldM (fun ls ic => match snd ic with Some c => put ls (fst ic) b c | None => Ok ls end)
      (combine (seq k (length code)) code) ls = Raise e ->
    e = IndexError /\ exists j t, at_ k code j = Some t /\ length ls <= j.
  Proof.
    revert k ls; induction code as [|c code IH]; intros k ls; cbn [length seq combine foldM]; [discriminate|].
    cbn [fst snd]. destruct (match c with Some c0 => put ls k b c0 | None => Ok ls end) as [ls1|e1] eqn:E1; cbn [bind].
    - intros E. destruct (IH _ _ E) as (He & j & t & Hj & Hl). split; [exact He|]. exists j, t.
      assert (Hk : S k <= j) by (unfold at_ in Hj; destruct (Nat.leb_spec (S k) j); [assumption|discriminate]).
      split.
      + unfold at_ in *. destruct (Nat.leb_spec (S k) j); [|lia]. destruct (Nat.leb_spec k j); [|lia].
        replace (j - k) with (S (j - S k)) by lia. exact Hj.
      + destruct c as [t0|]; [destruct (put_ok _ _ _ _ _ E1) as (_ & <- & _); exact Hl|congruence].
    - intros E. inversion E; subst. destruct c as [t0|]; [|discriminate].
      rewrite put_spec in E1. destruct (Nat.ltb_spec k (length ls)); [discriminate|]. inversion E1; subst.
      split; [reflexivity|]. exists k, t0. split; [|assumption]. unfold at_. rewrite Nat.leb_refl, Nat.sub_diag. reflexivity.
  Qed.

  Lemma vk_unique : dict_wf vkToButton.
  Proof. apply nodupb_NoDup. vm_compute. reflexivity. Qed.
  Lemma vk_In vk b : dget vkToButton vk = Some b <-> In (vk, b) vkToButton.
  Proof. apply dget_In_iff, vk_unique. Qed.
  Lemma mapM_nth {A B} (f : A -> res B) l r i : mapM f l = Ok r ->
    match nth_error l i, nth_error r i with Some x, Some y => f x = Ok y | None, None => True | _, _ => False end.
  Proof.
    intros E. apply mapM_Ok_inv in E. revert i; induction E as [|x y l r Hxy _ IH]; intros [|i]; cbn; auto. apply IH.
  Qed.
Section Rows.
  Variable int16 : text -> option Z.
  Variable nfd : text -> text.
  Notation codeToText := (codeToText int16 nfd).
  Notation cell_text := (cell_text int16 nfd).
  Notation cell_none := (cell_none int16).
  Lemma codeToText_some c t : codeToText c = Ok (Some t) <-> cell_text c t.
  Proof.
    unfold KlcModel.codeToText, KlcSpec.cell_text. destruct (eqb_spec c (lit "%%")) as [->|Hn].
    - split; [discriminate|intros [Hf _]; congruence].
    - destruct (int16 c) as [n|]; [|split; [discriminate|intros (_ & n & E & _); discriminate]].
      destruct (Z.eqb_spec n (-1)) as [->|Hm].
      + split; [discriminate|]. intros (_ & n & E & Hr & _). inversion E; subst. lia.
      + destruct (Z.leb 0 n && Z.ltb n 0x110000) eqn:Er.
        * split; [intros E; inversion E; subst; split; [exact Hn|exists n; repeat split; lia]|].
          intros (_ & m & E & _ & ->). inversion E; reflexivity.
        * split; [discriminate|]. intros (_ & m & E & Hr & _). inversion E; subst. lia.
  Qed.
  Lemma codeToText_none c : codeToText c = Ok None <-> cell_none c.
  Proof.
    unfold KlcModel.codeToText, KlcSpec.cell_none. destruct (eqb_spec c (lit "%%")) as [->|Hn]; [tauto|].
    destruct (int16 c) as [n|]; [|split; [discriminate|intros [?|?]; [contradiction|discriminate]]].
    destruct (Z.eqb_spec n (-1)) as [->|Hm]; [split; auto|].
    split.
    - destruct (Z.leb 0 n && Z.ltb n 0x110000); discriminate.
    - intros [?|E]; [contradiction|]. inversion E; contradiction.
  Qed.
  Lemma codeToText_raise c e : codeToText c = Raise e -> e = ValueError /\ ~ cell_none c /\ forall t, ~ cell_text c t.
  Proof.
    intros E. split; [|split].
    - revert E. unfold KlcModel.codeToText. destruct (eqb c (lit "%%")); [discriminate|].
      destruct (int16 c) as [n|]; [|congruence]. destruct (Z.eqb n (-1)); [discriminate|].
      destruct (Z.leb 0 n && Z.ltb n 0x110000); [discriminate|congruence].
    - intros Hn. apply codeToText_none in Hn. congruence.
    - intros t Ht. apply codeToText_some in Ht. congruence.
  Qed.

  (** A row given by its words. *)
  Definition words_row (ls : klayers) (ws : list text) : res klayers :=
    match ws with
    | sc :: vk :: cap :: code =>
        do cs <- mapM codeToText code;
        match dget vkToButton vk with
        | Some b => put_codes ls b cs
        | None => do _ <- assert_ (eqb vk (lit "DECIMAL")); Ok ls
        end
    | _ => Ok ls
    end.
  Lemma words_row_ok ls ws ls' : words_row ls ws = Ok ls' ->
    length ls' = length ls /\
    (forall i b t, says int16 nfd ws i b t -> i < length ls /\ dget (nth i ls' []) b = Some t) /\
    (forall i b, (forall t, ~ says int16 nfd ws i b t) -> dget (nth i ls' []) b = dget (nth i ls []) b).
  Proof.
    unfold words_row, says.
    destruct ws as [|sc [|vk [|cap code]]]; try (intros E; inversion E; subst; split; [reflexivity|split; [|reflexivity]];
      intros i b t (a1 & a2 & a3 & a4 & a5 & Hf & _); discriminate).
    destruct (mapM codeToText code) as [cs|] eqn:Ec; cbn [bind]; [|discriminate].
    assert (Hat : forall i t, at_ 0 cs i = Some t <-> exists c, nth_error code i = Some c /\ cell_text c t).
    { intros i t. pose proof (mapM_nth _ _ _ i Ec) as Hi. unfold at_. cbn [Nat.leb]. rewrite Nat.sub_0_r.
      destruct (nth_error code i) as [c|], (nth_error cs i) as [y|]; try contradiction.
      - split.
        + destruct y as [y|]; [|discriminate]. intros E; inversion E; subst. exists c. split; [reflexivity|]. apply codeToText_some, Hi.
        + intros (c' & E & Hc). inversion E; subst. apply codeToText_some in Hc. rewrite Hc in Hi. inversion Hi. reflexivity.
      - split; [discriminate|]. intros (c & E & _); discriminate. }
    destruct (dget vkToButton vk) as [b0|] eqn:Eb.
    - intros E. apply put_codes_gen in E as (H1 & H2 & H3). split; [exact H1|]. split.
      + intros i b t (sc' & vk' & cap' & codes & c & Ew & Hb & Hc & Ht). inversion Ew; subst.
        apply vk_In in Hb. assert (b = b0) by congruence. subst b0.
        assert (Ha : at_ 0 cs i = Some t) by (apply Hat; eauto).
        split; [eapply H3; eassumption|]. rewrite H2, eqb_refl, Ha. reflexivity.
      + intros i b Hn. rewrite H2. destruct (eqb_spec b b0) as [->|]; [|reflexivity].
        destruct (at_ 0 cs i) as [t|] eqn:Ea; [|reflexivity]. exfalso. apply Hat in Ea as (c & Hc & Ht).
        apply (Hn t). exists sc, vk, cap, code, c. apply vk_In in Eb. auto.
    - unfold assert_. destruct (eqb_spec vk (lit "DECIMAL")) as [->|]; cbn [bind]; [|discriminate].
      intros E; inversion E; subst. split; [reflexivity|]. split; [|reflexivity].
      intros i b t (sc' & vk' & cap' & codes & c & Ew & Hb & _). inversion Ew; subst. apply vk_In in Hb. congruence.
  Qed.
  (** How a row fails. *)
  Lemma words_row_err ls ws e : words_row ls ws = Raise e ->
    exists sc vk cap codes, ws = sc :: vk :: cap :: codes /\
      ((e = ValueError /\ ~ cells_ok int16 nfd codes) \/
       (e = AssertionError /\ cells_ok int16 nfd codes /\ ~ known vk) \/
       (e = IndexError /\ cells_ok int16 nfd codes /\ known vk /\
        exists b i c t, In (vk, b) vkToButton /\ nth_error codes i = Some c /\ cell_text c t /\ length ls <= i)).
  Proof.
    unfold words_row. destruct ws as [|sc [|vk [|cap code]]]; try discriminate. intros E.
    exists sc, vk, cap, code. split; [reflexivity|].
    destruct (mapM codeToText code) as [cs|e1] eqn:Ec; cbn [bind] in E.
    - assert (Hok : cells_ok int16 nfd code).
      { intros c Hc. apply In_nth_error in Hc as [i Hi]. pose proof (mapM_nth _ _ _ i Ec) as Hm. rewrite Hi in Hm.
        destruct (nth_error cs i) as [[t|]|]; [right; exists t; apply codeToText_some, Hm|left; apply codeToText_none, Hm|contradiction]. }
      right. destruct (dget vkToButton vk) as [b0|] eqn:Eb.
      + right. apply put_codes_err in E as (-> & j & t & Hj & Hl). split; [reflexivity|]. split; [exact Hok|].
        apply vk_In in Eb. split; [right; eauto|]. pose proof (mapM_nth _ _ _ j Ec) as Hm.
        unfold at_ in Hj. cbn [Nat.leb] in Hj. rewrite Nat.sub_0_r in Hj.
        destruct (nth_error cs j) as [[t1|]|]; try discriminate. destruct (nth_error code j) as [c|] eqn:Ecj; [|contradiction].
        exists b0, j, c, t1. split; [exact Eb|]. split; [exact Ecj|]. split; [apply codeToText_some, Hm|exact Hl].
      + left. unfold assert_ in E. destruct (eqb_spec vk (lit "DECIMAL")) as [->|Hn]; cbn [bind] in E; [discriminate|].
        inversion E. split; [reflexivity|]. split; [exact Hok|]. intros [?|[b Hb]]; [contradiction|].
        apply vk_In in Hb. congruence.
    - left. inversion E; subst. apply mapM_Raise_inv in Ec as (c & Hc & Hr). apply codeToText_raise in Hr as (-> & H1 & H2).
      split; [reflexivity|]. intros Hok. destruct (Hok c Hc) as [?|[t ?]]; [contradiction|eapply H2; eassumption].
  Qed.
  Lemma words_row_run ls ws : length ls = 6 -> row_ok int16 nfd ws -> exists ls', words_row ls ws = Ok ls'.
  Proof.
    intros Hl Hr. destruct (words_row ls ws) as [ls'|e] eqn:E; [eauto|exfalso].
    destruct (words_row_err _ _ _ E) as (sc & vk & cap & codes & -> & H). destruct (Hr sc vk cap codes eq_refl) as (H1 & H2 & H3).
    destruct H as [[_ H]|[(_ & _ & H)|(_ & _ & _ & b & i & c & t & Hb & Hc & Ht & Hi)]]; [contradiction|contradiction|].
    specialize (H3 _ _ _ _ Hb Hc Ht). lia.
  Qed.
  Lemma words_row_ok_inv ls ws ls' : length ls = 6 -> words_row ls ws = Ok ls' -> row_ok int16 nfd ws.
  Proof.
    intros Hl E sc vk cap codes ->. pose proof (words_row_ok _ _ _ E) as (_ & Hs & _).
    unfold words_row in E. destruct (mapM codeToText codes) as [cs|] eqn:Ec; cbn [bind] in E; [|discriminate].
    split; [|split].
    - intros c Hc. apply In_nth_error in Hc as [i Hi]. pose proof (mapM_nth _ _ _ i Ec) as Hm. rewrite Hi in Hm.
      destruct (nth_error cs i) as [[t|]|]; [right; exists t; apply codeToText_some, Hm|left; apply codeToText_none, Hm|contradiction].
    - destruct (dget vkToButton vk) as [b|] eqn:Eb; [right; exists b; apply vk_In, Eb|].
      unfold assert_ in E. destruct (eqb_spec vk (lit "DECIMAL")); [left; assumption|discriminate].
    - intros b i c t Hb Hc Ht. rewrite <- Hl. eapply Hs. exists sc, vk, cap, codes, c. eauto.
  Qed.

  (** * Files *)
  Lemma klc_written ws l ls : written ws l -> plain ws ->
    klc_line int16 nfd (true, ls) l = do ls' <- words_row ls ws; Ok (true, ls').
  Proof.
    intros Hw [Hp1 Hp2]. apply written_seen in Hw as (H1 & H2 & H3). unfold klc_line.
    remember (strip (strip_comment l)) as line eqn:El. clear El.
    destruct ws as [|w ws].
    - rewrite H1. reflexivity.
    - specialize (H3 ltac:(discriminate)).
      assert (S1 : starts (lit "LAYOUT") line = false).
      { destruct (starts (lit "LAYOUT") line) eqn:Es; [|reflexivity]. exfalso. apply starts_iff in Es as [x Ex].
        apply (Hp2 w ws eq_refl). clear - H3 Ex. revert Ex.
        assert (G : exists y, line = w ++ y /\ (y = [] \/ exists c y', y = c :: y' /\ is_space c = true)).
        { inversion H3; subst; [exists []; split; [now rewrite app_nil_r|auto]|].
          exists (s ++ t). split; [reflexivity|right]. destruct s as [|c s]; [congruence|].
          match goal with Hb : blank _ |- _ => inversion Hb; subst end. exists c, (s ++ t). rewrite is_space_iff. auto. }
        destruct G as (y & -> & Hy). clear H3.
        assert (L : Forall (fun c => is_space c = false) (lit "LAYOUT")) by (repeat constructor).
        revert w L. generalize (lit "LAYOUT"). intros p. induction p as [|a p IH]; intros w L Ex; [exists w; reflexivity|].
        inversion L; subst. destruct w as [|c w]; cbn in Ex.
        - destruct Hy as [->|(c & y' & -> & Hc)]; [discriminate|]. inversion Ex; subst. congruence.
        - inversion Ex; subst. destruct (IH w) as [z ->]; [assumption|assumption|]. exists z. reflexivity. }
      rewrite S1.
      destruct (eqb_spec line (lit "LIGATURE")) as [El|_].
      + exfalso. apply Hp1. rewrite <- H2, El. reflexivity.
      + unfold klc_row. rewrite H2. reflexivity.
  Qed.
  Lemma klc_written_all rows body ls : Forall2 written rows body -> Forall plain rows ->
    foldM (klc_line int16 nfd) body (true, ls) = do ls' <- foldM words_row rows ls; Ok (true, ls').
  Proof.
    intros H. revert ls; induction H as [|ws l rows body Hw _ IH]; intros ls Hp; cbn [foldM]; [reflexivity|].
    inversion Hp; subst. rewrite (klc_written ws) by assumption.
    destruct (words_row ls ws) as [ls1|]; cbn [bind]; [apply IH; assumption|reflexivity].
  Qed.
  Lemma klc_skip pre ls : Forall (fun l => ~ contains (lit "LAYOUT") l) pre ->
    foldM (klc_line int16 nfd) pre (false, ls) = Ok (false, ls).
  Proof.
    induction 1 as [|l pre Hl _ IH]; cbn [foldM]; [reflexivity|].
    unfold klc_line at 1. rewrite not_contains_starts by exact Hl.
    destruct (eqb (strip (strip_comment l)) (lit "LIGATURE")); cbn [bind]; exact IH.
  Qed.
  Lemma klc_file_rows file rows : klc_file file rows ->
    fromKlc int16 nfd file = foldM words_row rows (repeat [] 6).
  Proof.
    intros (pre & l0 & body & post & -> & Hpre & Hl0 & Hb & Hp & Hpost). unfold fromKlc.
    rewrite foldM_app, klc_skip by exact Hpre. cbn [bind foldM].
    unfold klc_line at 1. rewrite layout_line_starts by exact Hl0. cbn [bind].
    rewrite foldM_app, (klc_written_all rows) by assumption.
    destruct (foldM words_row rows (repeat [] 6)) as [ls|]; cbn [bind]; [|reflexivity].
    destruct Hpost as [->|(l1 & rest & -> & Hl1 & Hrest)]; [reflexivity|].
    cbn [foldM]. apply written_seen in Hl1 as (_ & _ & H3). specialize (H3 ltac:(discriminate)).
    assert (E : strip (strip_comment l1) = lit "LIGATURE").
    { inversion H3; subst; [congruence|]. match goal with Hs : spaced [] _ |- _ => inversion Hs end. }
    unfold klc_line at 1. rewrite E. cbn [bind]. change (starts (lit "LAYOUT") (lit "LIGATURE")) with false. rewrite eqb_refl. cbn [bind].
    rewrite klc_skip by exact Hrest. reflexivity.
  Qed.
  Lemma rows_ok rows ls ls' : foldM words_row rows ls = Ok ls' ->
    length ls' = length ls /\
    forall i b,
      (forall t, last_says int16 nfd rows i b t -> i < length ls /\ dget (nth i ls' []) b = Some t) /\
      ((forall r t, In r rows -> ~ says int16 nfd r i b t) -> dget (nth i ls' []) b = dget (nth i ls []) b).
  Proof.
    revert ls; induction rows as [|r rows IH]; intros ls; cbn [foldM].
    - intros E; inversion E; subst. split; [reflexivity|]. intros i b. split; [|reflexivity].
      intros t (pre & r & post & Hf & _). destruct pre; discriminate.
    - destruct (words_row ls r) as [ls1|] eqn:E1; cbn [bind]; [|discriminate]. intros E.
      destruct (words_row_ok _ _ _ E1) as (A1 & A2 & A3). destruct (IH _ E) as (B1 & B2).
      split; [congruence|]. intros i b. destruct (B2 i b) as [C1 C2]. split.
      + intros t (pre & r' & post & Er & Hs & Hn). destruct pre as [|r0 pre]; cbn in Er; inversion Er; subst.
        * destruct (A2 _ _ _ Hs) as [L Ed]. split; [exact L|]. rewrite C2; [exact Ed|].
          intros r0 t0 Hr0. apply Hn, Hr0.
        * rewrite <- A1. apply C1. exists pre, r', post. auto.
      + intros Hn. rewrite C2; [apply A3; intros t; apply Hn; left; reflexivity|]. intros r0 t0 Hr0. apply Hn. right; exact Hr0.
  Qed.
End Rows.
