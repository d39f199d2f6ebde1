From Verif Require Import Base LayoutModel LayoutSpec LayoutProofs WriterModel WriterSpec.
Set Implicit Arguments.
Open Scope list_scope.

(** * chooseCombination *)
Section Choose.
  Variable fm : list (string * (direction * finger)).

  Lemma sumScore_from bs acc : incl bs (dkeys fm) ->
    foldM (fun acc b => do hf <- getHandFinger fm b; Ok (acc + dirToScore (fst hf))%Z) bs acc = Ok (acc + bal fm bs)%Z.
  Proof.
    revert acc; induction bs as [|b bs IH]; intros acc Hi; cbn [foldM bal fold_right].
    - f_equal. lia.
    - assert (Hb : In b (dkeys fm)) by (apply Hi; left; reflexivity).
      apply dget_key in Hb as [[d f] Hd]. assert (Hs : side fm b = dirToScore d) by (unfold side; rewrite Hd; destruct d; reflexivity).
      unfold getHandFinger, dgetM. rewrite Hd. cbn [bind of_opt fst].
      rewrite IH by (intros x Hx; apply Hi; right; exact Hx). f_equal. fold (bal fm bs). rewrite Hs. lia.
  Qed.
  Lemma sumScore_ok bs : incl bs (dkeys fm) -> sumScore fm bs = Ok (bal fm bs).
  Proof. intros H. unfold sumScore. rewrite sumScore_from by exact H. f_equal. Qed.

  Lemma side_bound b : (-1 <= side fm b <= 1)%Z.
  Proof. unfold side. destruct (dget fm b) as [[[] f]|]; lia. Qed.
  Lemma bal_bound bs : (Z.abs (bal fm bs) <= Z.of_nat (length bs))%Z.
  Proof.
    induction bs as [|b bs IH]; cbn [bal fold_right length]; [lia|]. pose proof (side_bound b).
    unfold bal in IH. lia.
  Qed.
  Lemma bal_app a b : bal fm (a ++ b) = (bal fm a + bal fm b)%Z.
  Proof. unfold bal. induction a as [|x a IH]; cbn [app fold_right]; lia. Qed.

  Lemma pack_sum a b c : (0 <= a)%Z -> (0 <= b < 256)%Z -> (0 <= c < 256)%Z ->
    Z.lor (Z.lor (Z.shiftl a 16) (Z.shiftl b 8)) (Z.shiftl c 0) = (a * 65536 + b * 256 + c)%Z.
  Proof.
    intros Ha Hb Hc. rewrite Z.shiftl_0_r.
    assert (D : forall x y n, (0 <= n)%Z -> (0 <= x)%Z -> (0 <= y < 2 ^ n)%Z -> Z.lor (Z.shiftl x n) y = (x * 2 ^ n + y)%Z).
    { intros x y n Hn Hx Hy.
      assert (L : Z.land (Z.shiftl x n) y = 0%Z).
      { apply Z.bits_inj'. intros k Hk. rewrite Z.land_spec, Z.bits_0, Z.shiftl_spec by exact Hk.
        destruct (Z.lt_ge_cases k n).
        - rewrite Z.testbit_neg_r by lia. reflexivity.
        - assert (Z.testbit y k = false) as ->; [|apply andb_false_r].
          rewrite <- (Z.mod_small y (2 ^ n)) by exact Hy. apply Z.mod_pow2_bits_high. lia. }
      rewrite <- Z.lxor_lor by exact L. rewrite <- Z.add_nocarry_lxor by exact L.
      rewrite Z.shiftl_mul_pow2 by exact Hn. reflexivity. }
    replace (Z.lor (Z.shiftl a 16) (Z.shiftl b 8)) with (Z.shiftl (Z.lor (Z.shiftl a 8) b) 8).
    - rewrite (D a b 8%Z) by (try lia; change (2 ^ 8)%Z with 256%Z; lia).
      rewrite D by (try lia; change (2 ^ 8)%Z with 256%Z; lia). change (2 ^ 8)%Z with 256%Z. lia.
    - rewrite Z.shiftl_lor, Z.shiftl_shiftl by lia. reflexivity.
  Qed.

  Definition score (k : Z * Z * Z) : Z := let '(a, b, c) := k in (a * 65536 + b * 256 + c)%Z.

  Lemma min_by_spec (best : Z * comb) (l : list (Z * comb)) : exists l1 z l2,
    best :: l = l1 ++ (z, min_by best l) :: l2 /\
    Forall (fun p => (z < fst p)%Z) l1 /\ Forall (fun p => (z <= fst p)%Z) l2.
  Proof.
    revert best; induction l as [|p l IH]; intros best; cbn [min_by].
    - exists [], (fst best), []. destruct best; cbn. auto.
    - destruct (IH (if (fst p <? fst best)%Z then p else best)) as (l1 & z & l2 & E & F1 & F2).
      destruct (Z.ltb_spec (fst p) (fst best)) as [Hlt|Hge].
      + (* p replaces best: best goes in front *)
        exists (best :: l1), z, l2. cbn. rewrite <- E. split; [reflexivity|]. split; [|exact F2].
        constructor; [|exact F1].
        assert (z <= fst p)%Z; [|lia].
        assert (In p (l1 ++ (z, min_by p l) :: l2)) as Hi by (rewrite <- E; left; reflexivity).
        rewrite Forall_forall in F1, F2. apply in_app_iff in Hi as [Hi|[Hi|Hi]].
        * apply F1 in Hi. lia.
        * rewrite <- Hi; cbn; lia.
        * apply F2 in Hi. lia.
      + destruct l1 as [|q l1]; cbn [app] in E; injection E as Eb El.
        * exists [], z, (p :: l2). rewrite <- El. cbn [app]. rewrite <- Eb. split; [reflexivity|]. split; [constructor|].
          constructor; [rewrite Eb in Hge; cbn [fst] in Hge; lia|rewrite El; exact F2].
        * exists (q :: p :: l1), z, l2. cbn [app]. rewrite <- El, <- Eb. split; [reflexivity|]. split; [|exact F2].
          inversion F1; subst. constructor; [assumption|]. constructor; [lia|assumption].
  Qed.

  Hypothesis fm_small : length fm < 128.

  Lemma fingered_len (s : bset) : incl (elems s) (dkeys fm) -> length (elems s) < 128.
  Proof.
    intros H. pose proof (NoDup_incl_length (bset_NoDup s) H) as L. unfold dkeys in L. rewrite map_length in L. lia.
  Qed.

  Definition prev_fingered (prev : option comb) : Prop :=
    match prev with None => True | Some p => comb_fingered fm p end.

  Lemma mod_or_buttons_eq p : mod_or_buttons p = if Nat.eqb (length (elems (cmod p))) 0 then elems (cbtn p) else elems (cmod p).
  Proof. unfold mod_or_buttons. destruct (elems (cmod p)); reflexivity. Qed.

  Lemma mod_or_buttons_len p : comb_fingered fm p -> incl (mod_or_buttons p) (dkeys fm) /\ length (mod_or_buttons p) < 128.
  Proof.
    intros [H1 H2]. rewrite mod_or_buttons_eq. destruct (Nat.eqb _ 0); split; auto using fingered_len.
  Qed.

  Definition in_range (k : Z * Z * Z) : Prop :=
    let '(a, b, c) := k in (0 <= a /\ 0 <= b < 256 /\ 0 <= c < 256)%Z.

  Lemma criteria_range prev c : prev_fingered prev -> comb_fingered fm c -> in_range (criteria fm prev c).
  Proof.
    intros Hp [H1 H2]. unfold in_range, criteria.
    pose proof (fingered_len _ H1). pose proof (fingered_len _ H2).
    split; [lia|]. split.
    - pose proof (bal_bound (elems (cmod c) ++ elems (cbtn c))) as B. rewrite app_length in B. lia.
    - destruct prev as [p|]; [|lia]. pose proof (mod_or_buttons_len Hp) as [_ L]. rewrite mod_or_buttons_eq in L.
      match goal with |- context [bal fm ?x] => pose proof (bal_bound x) as B end. rewrite app_length in B. lia.
  Qed.

  Lemma calcEffort_ok prev c : prev_fingered prev -> comb_fingered fm c ->
    calcEffort fm prev c = Ok (score (criteria fm prev c)).
  Proof.
    intros Hp Hc. pose proof (criteria_range prev Hp Hc) as Hr. unfold calcEffort.
    assert (E1 : match prev with Some p => sumScore fm (mod_or_buttons p ++ elems (cbtn c)) | None => Ok (dirToScore RIGHT) end
      = Ok match prev with Some p => bal fm (mod_or_buttons p ++ elems (cbtn c)) | None => (-1)%Z end).
    { destruct prev as [p|]; [|reflexivity]. apply sumScore_ok. intros x Hx. apply in_app_iff in Hx as [Hx|Hx].
      - apply (proj1 (mod_or_buttons_len Hp)), Hx.
      - apply (proj2 Hc), Hx. }
    rewrite E1. cbn [bind]. unfold comb_iter. rewrite sumScore_ok.
    2:{ intros x Hx. apply in_app_iff in Hx as [Hx|Hx]; [apply (proj1 Hc), Hx|apply (proj2 Hc), Hx]. }
    cbn [bind]. f_equal. unfold criteria, in_range, score in *. destruct Hr as (R1 & R2 & R3).
    unfold comb_len. destruct prev as [p|].
    - rewrite mod_or_buttons_eq. rewrite pack_sum by assumption. reflexivity.
    - rewrite pack_sum by (auto; cbn; lia). reflexivity.
  Qed.

  Lemma score_lt k1 k2 : in_range k1 -> in_range k2 -> ((score k1 < score k2)%Z <-> lex_lt k1 k2).
  Proof.
    destruct k1 as [[a b] c], k2 as [[a' b'] c']. unfold in_range, score, lex_lt. intros. split; intros.
    - destruct (Z.lt_trichotomy a a') as [|[|]]; [auto| |exfalso; nia]. right. split; [assumption|].
      destruct (Z.lt_trichotomy b b') as [|[|]]; [auto| |exfalso; nia]. right. split; [assumption|]. nia.
    - destruct H1 as [|[-> [|[-> ]]]]; nia.
  Qed.
  Lemma score_inj k1 k2 : in_range k1 -> in_range k2 -> score k1 = score k2 -> k1 = k2.
  Proof.
    destruct k1 as [[a b] c], k2 as [[a' b'] c']. unfold in_range, score. intros.
    assert (a = a') by nia. assert (b = b') by nia. assert (c = c') by nia. congruence.
  Qed.

  Lemma combine_map_l {A B} (f : A -> B) l : combine (map f l) l = map (fun x => (f x, x)) l.
  Proof. induction l; cbn; [reflexivity|]. f_equal; assumption. Qed.

  Theorem chooseCombination_lex prev cs : cs <> [] -> prev_fingered prev -> Forall (comb_fingered fm) cs ->
    exists l1 c l2, chooseCombination fm prev cs = Ok c /\ cs = l1 ++ c :: l2 /\
      Forall (fun c' => lex_lt (criteria fm prev c) (criteria fm prev c')) l1 /\
      Forall (fun c' => ~ lex_lt (criteria fm prev c') (criteria fm prev c)) l2.
  Proof.
    intros Hne Hp Hcs. unfold chooseCombination.
    assert (E : mapM (calcEffort fm prev) cs = Ok (map (fun c => score (criteria fm prev c)) cs)).
    { apply mapM_total. intros c Hc. apply calcEffort_ok; [exact Hp|]. rewrite Forall_forall in Hcs. auto. }
    destruct cs as [|c0 cs']; [congruence|].
    destruct cs' as [|c1 cs'']; [exists [], c0, []; auto|].
    rewrite E. cbn [bind]. rewrite combine_map_l. cbn [map].
    destruct (min_by_spec (score (criteria fm prev c0), c0)
               (map (fun c => (score (criteria fm prev c), c)) (c1 :: cs''))) as (l1 & z & l2 & E1 & F1 & F2).
    cbn [map] in E1. set (c := min_by _ _) in *. clearbody c.
    change (map (fun x => (score (criteria fm prev x), x)) (c0 :: c1 :: cs'') = l1 ++ (z, c) :: l2) in E1.
    apply map_eq_app in E1 as (m1 & m2' & Ecs & Em1 & E1). 
    destruct m2' as [|x m2]; [discriminate|]. cbn in E1. inversion E1 as [[Ez Ex Em2]]. subst x.
    exists m1, c, m2. split; [reflexivity|]. split; [exact Ecs|].
    rewrite Ecs in Hcs. rewrite Forall_app in Hcs. destruct Hcs as [Hc1 Hc2]. inversion Hc2 as [|? ? Hc Hc3]; subst.
    split; apply Forall_forall; intros c' Hc'.
    - rewrite Forall_forall in F1. specialize (F1 _ (in_map (fun x => (score (criteria fm prev x), x)) _ _ Hc')). cbn [fst] in F1.
      apply score_lt; auto using criteria_range. apply criteria_range; auto. rewrite Forall_forall in Hc1; auto.
    - rewrite Forall_forall in F2. specialize (F2 _ (in_map (fun x => (score (criteria fm prev x), x)) _ _ Hc')). cbn [fst] in F2.
      intros Hlt. assert (R1 : in_range (criteria fm prev c)) by (apply criteria_range; auto).
      assert (R2 : in_range (criteria fm prev c')) by (apply criteria_range; auto; rewrite Forall_forall in Hc3; auto).
      apply (proj2 (score_lt _ _ R2 R1)) in Hlt. apply (Z.lt_irrefl (score (criteria fm prev c))).
      eapply Z.le_lt_trans; [exact F2|exact Hlt].
  Qed.

  Lemma chooseCombination_in prev cs c : chooseCombination fm prev cs = Ok c -> In c cs.
  Proof.
    unfold chooseCombination. destruct cs as [|c0 [|c1 cs]]; [cbn; discriminate|intros E; inversion E; left; reflexivity|].
    destruct (mapM (calcEffort fm prev) (c0 :: c1 :: cs)) as [es|] eqn:E; cbn [bind]; [|discriminate].
    apply mapM_Ok_inv, Forall2_length in E.
    destruct (combine es (c0 :: c1 :: cs)) as [|p l] eqn:Ec; [discriminate|].
    intros X; inversion X; subst. destruct (min_by_spec p l) as (l1 & z & l2 & E1 & _).
    rewrite <- Ec in E1. assert (In (z, min_by p l) (combine es (c0 :: c1 :: cs))) as Hi.
    { rewrite E1. apply in_app_iff. right; left; reflexivity. }
    eapply in_combine_r, Hi.
  Qed.
  Lemma chooseCombination_err prev cs e : chooseCombination fm prev cs = Raise e ->
    e = KeyError \/ (e = ValueError /\ cs = []).
  Proof.
    assert (S : forall bs e, sumScore fm bs = Raise e -> e = KeyError).
    { intros bs. unfold sumScore. generalize 0%Z. induction bs as [|b bs IH]; cbn [foldM]; intros z e'; [discriminate|].
      unfold getHandFinger, dgetM. destruct (dget fm b); cbn; [apply IH|congruence]. }
    unfold chooseCombination. destruct cs as [|c0 [|c1 cs]]; [cbn; intros X; inversion X; auto|discriminate|].
    destruct (mapM (calcEffort fm prev) (c0 :: c1 :: cs)) as [es|e'] eqn:E; cbn [bind].
    - apply mapM_Ok_inv, Forall2_length in E. destruct es; [discriminate|]. discriminate.
    - intros X; inversion X; subst. left. apply mapM_Raise_inv in E as (c & _ & E). unfold calcEffort in E.
      destruct prev as [p|].
      + destruct (sumScore fm (mod_or_buttons p ++ elems (cbtn c))) eqn:E1; cbn [bind] in E.
        * destruct (sumScore fm (comb_iter c)) eqn:E2; cbn [bind] in E; [discriminate|]. inversion E; subst. eapply S, E2.
        * inversion E; subst. eapply S, E1.
      + cbn [bind] in E. destruct (sumScore fm (comb_iter c)) eqn:E2; cbn [bind] in E; [discriminate|]. inversion E; subst. eapply S, E2.
  Qed.
End Choose.

(** * Typing *)
Section Typing.
  Variable fm : list (string * (direction * finger)).
  Variable R : Type.
  Variable read : R -> nat -> text * R.
  Variable rest : R -> text.

  Lemma ways_nonempty ls t : layers_ok ls -> assigned ls t -> ways ls t <> [].
  Proof.
    intros Hok (b & l & Hl & Hb). unfold layers_ok in Hok. rewrite Forall_forall in Hok.
    destruct (Hok l Hl) as [_ Hm]. assert (lmods l <> []) as Hne by (apply Hm; eauto).
    destruct (lmods l) as [|m ms] eqn:E; [congruence|].
    assert (In (mkComb m (frozenset [b])) (ways ls t)) as Hi.
    { apply in_ways. exists l, b, m. rewrite E. cbn; auto. }
    intros X. rewrite X in Hi. destruct Hi.
  Qed.
  Lemma assigned_nonempty ls t : layers_ok ls -> assigned ls t -> t <> [].
  Proof.
    intros Hok (b & l & Hl & Hb) ->. unfold layers_ok in Hok. rewrite Forall_forall in Hok.
    destruct (Hok l Hl) as [Ht _]. rewrite Forall_forall in Ht. apply (Ht _ Hb). reflexivity.
  Qed.
  Lemma bufferLen_pos ls : layers_ok ls -> (exists t, assigned ls t) -> 0 < bufferLen (layout_new ls).
  Proof.
    intros Hok [t Ht]. pose proof (bufferLen_ge Ht). pose proof (assigned_nonempty Hok Ht). destruct t; [congruence|]. cbn in *; lia.
  Qed.

  (** One step of the loop on a non-empty buffer. *)
  Definition step (L : layout) (last : option comb) (buf : text) : res (text * comb) :=
    do mc <- lookup L buf;
    do _ <- assert_ (Nat.ltb 0 (length (fst mc)));
    do c <- chooseCombination fm last (snd mc);
    Ok (fst mc, c).

  Lemma step_ok ls last buf m c : step (layout_new ls) last buf = Ok (m, c) ->
    longest_assigned ls buf m /\ m <> [] /\ In c (ways ls m).
  Proof.
    unfold step. destruct (lookup (layout_new ls) buf) as [[m' cs]|] eqn:E; cbn [bind fst snd]; [|discriminate].
    apply lookup_ok in E as [Hl ->]. destruct (Nat.ltb_spec 0 (length m')); cbn [assert_ bind]; [|discriminate].
    destruct (chooseCombination fm last (ways ls m')) as [c'|] eqn:Ec; cbn [bind]; [|discriminate].
    intros X; inversion X; subst. split; [exact Hl|]. split; [destruct m; [cbn in *; lia|congruence]|].
    eapply chooseCombination_in, Ec.
  Qed.
  Lemma step_err ls last buf e : layers_ok ls -> step (layout_new ls) last buf = Raise e -> e = KeyError.
  Proof.
    intros Hok. unfold step. destruct (lookup (layout_new ls) buf) as [[m' cs]|e'] eqn:E; cbn [bind fst snd].
    - apply lookup_ok in E as [Hl ->]. destruct Hl as (Ha & _).
      destruct m' as [|ch m']; [exfalso; exact (assigned_nonempty Hok Ha eq_refl)|]. cbn [length Nat.ltb Nat.leb assert_ bind].
      destruct (chooseCombination fm last (ways ls (ch :: m'))) as [c'|e'] eqn:Ec; cbn [bind]; [discriminate|].
      intros X; inversion X; subst. apply chooseCombination_err in Ec as [|[_ Hw]]; [assumption|].
      exfalso. exact (ways_nonempty Hok Ha Hw).
    - apply lookup_error in E as [-> _]. congruence.
  Qed.

  Lemma type_loop_eq L fuel r buf last : type_loop fm R read L (S fuel) r buf last =
    let (s, r') := read r (bufferLen L - length buf) in
    match buf ++ s with
    | [] => ([], Done, last)
    | ch :: rst =>
        match step L last (buf ++ s) with
        | Ok (m, c) => let '(es, f, l) := type_loop fm R read L fuel r' (skipn (length m) (buf ++ s)) (Some c) in (EMatch m c :: es, f, l)
        | Raise KeyError => let '(es, f, l) := type_loop fm R read L fuel r' rst last in (ESkip ch :: es, f, l)
        | Raise e => ([], Exn e, last)
        end
    end.
  Proof.
    cbn [type_loop]. destruct (read r (bufferLen L - length buf)) as [s r'].
    destruct (buf ++ s) as [|ch rst] eqn:E; [reflexivity|]. unfold step. reflexivity.
  Qed.

  Theorem type_coverage ls : file_like read rest -> layers_ok ls -> (exists t, assigned ls t) ->
    forall fuel r buf last, length (buf ++ rest r) < fuel -> length buf <= bufferLen (layout_new ls) ->
    exists es l, type_loop fm R read (layout_new ls) fuel r buf last = (es, Done, l) /\
      concat (map ev_text es) = buf ++ rest r /\
      Forall (fun e => match e with EMatch m c => In c (ways ls m) | ESkip _ => True end) es.
  Proof.
    intros Hfile Hok Hex. pose proof (bufferLen_pos Hok Hex) as Hpos.
    induction fuel as [|fuel IH]; intros r buf last Hfuel Hbuf; [lia|].
    rewrite type_loop_eq. destruct (Hfile r (bufferLen (layout_new ls) - length buf)) as (k & Hk & Hkpos & Hs & Hr).
    destruct (read r (bufferLen (layout_new ls) - length buf)) as [s r']; cbn [fst snd] in Hs, Hr.
    assert (Hall : (buf ++ s) ++ rest r' = buf ++ rest r) by (rewrite <- app_assoc, Hs, Hr, firstn_skipn; reflexivity).
    destruct (buf ++ s) as [|ch rst] eqn:Ebuf.
    - apply app_eq_nil in Ebuf as [-> ->]. exists [], last. split; [reflexivity|]. split; [|constructor].
      cbn. destruct (rest r) as [|x t] eqn:Er; [reflexivity|]. exfalso. cbn [length] in *.
      assert (0 < k) by (apply Hkpos; [lia|congruence]). destruct k; [lia|]. cbn in Hs. discriminate.
    - assert (Hblen : length (ch :: rst) <= bufferLen (layout_new ls)).
      { rewrite <- Ebuf, app_length, Hs, firstn_length. lia. }
      assert (Hlen : length ((ch :: rst) ++ rest r') < S fuel) by (rewrite Hall; exact Hfuel).
      destruct (step (layout_new ls) last (ch :: rst)) as [[m c]|e] eqn:Es.
      + apply step_ok in Es as ((Ha & [q Hq] & _) & Hm & Hc).
        rewrite Hq in *. rewrite skipn_app, skipn_all, Nat.sub_diag. cbn [skipn app].
        rewrite !app_length in *. assert (0 < length m) by (destruct m; [congruence|cbn; lia]).
        destruct (IH r' q (Some c)) as (es & l & E & Hcat & Hf); [rewrite app_length; lia|lia|].
        rewrite E. exists (EMatch m c :: es), l. split; [reflexivity|]. split; [|constructor; assumption].
        cbn [map concat ev_text]. rewrite Hcat, app_assoc. exact Hall.
      + rewrite (step_err _ _ Hok Es). cbn [length app] in *.
        destruct (IH r' rst last) as (es & l & E & Hcat & Hf); [lia|lia|].
        rewrite E. exists (ESkip ch :: es), l. split; [reflexivity|]. split; [|constructor; auto].
        cbn [map concat ev_text app]. rewrite Hcat. exact Hall.
  Qed.

  Lemma step_skip ls last buf : fingered fm ls -> layers_ok ls -> length fm < 128 -> prev_fingered fm last ->
    step (layout_new ls) last buf = Raise KeyError -> unmapped ls buf.
  Proof.
    intros Hf Hok Hsmall Hp. unfold step. destruct (lookup (layout_new ls) buf) as [[m' cs]|e'] eqn:E; cbn [bind fst snd].
    - apply lookup_ok in E as [Hl ->]. destruct Hl as (Ha & _).
      destruct m' as [|ch m']; [exfalso; exact (assigned_nonempty Hok Ha eq_refl)|]. cbn [length Nat.ltb Nat.leb assert_ bind].
      destruct (@chooseCombination_lex fm Hsmall last (ways ls (ch :: m'))) as (l1 & c & l2 & Ec & _).
      + apply ways_nonempty; assumption.
      + exact Hp.
      + apply Forall_forall. intros c Hc. apply in_ways in Hc as (l & b & m & Hl & Hb & Hm & ->). split; cbn [cmod cbtn].
        * intros x Hx. apply Hf. unfold mentioned. apply in_flat_map. exists l. split; [exact Hl|]. apply in_app_iff. left.
          apply in_flat_map. eauto.
        * intros x [<-|[]]. apply Hf. unfold mentioned. apply in_flat_map. exists l. split; [exact Hl|]. apply in_app_iff. right.
          apply in_map_iff. exists (b, CText (ch :: m')). auto.
      + rewrite Ec. cbn [bind]. discriminate.
    - intros _. apply lookup_error in E. apply E.
  Qed.

  Lemma ways_fingered ls t c : fingered fm ls -> In c (ways ls t) -> comb_fingered fm c.
  Proof.
    intros Hf Hc. apply in_ways in Hc as (l & b & m & Hl & Hb & Hm & ->). split; cbn [cmod cbtn].
    - intros x Hx. apply Hf. unfold mentioned. apply in_flat_map. exists l. split; [exact Hl|]. apply in_app_iff. left.
      apply in_flat_map. eauto.
    - intros x [<-|[]]. apply Hf. unfold mentioned. apply in_flat_map. exists l. split; [exact Hl|]. apply in_app_iff. right.
      apply in_map_iff. exists (b, CText t). auto.
  Qed.

  (** The buffer is a long enough window on the remaining text. *)
  Lemma window_longest ls text n m : bufferLen (layout_new ls) <= n \/ length text <= n ->
    longest_assigned ls (firstn n text) m <-> longest_assigned ls text m.
  Proof.
    intros Hn. unfold longest_assigned.
    assert (P : forall t, assigned ls t -> ((exists q, firstn n text = t ++ q) <-> (exists q, text = t ++ q))).
    { intros t Ht. pose proof (bufferLen_ge Ht) as Hlen. destruct Hn as [Hn|Hn].
      - split.
        + intros [q Hq]. exists (q ++ skipn n text). rewrite app_assoc, <- Hq, firstn_skipn. reflexivity.
        + intros [q ->]. exists (firstn (n - length t) q). rewrite firstn_app. f_equal. apply firstn_all2. lia.
      - rewrite firstn_all2 by exact Hn. tauto. }
    split; intros (Ha & Hp & Hm); (split; [exact Ha|]; split; [apply P; assumption|]);
      intros t' Ht' Hq; apply Hm; auto; apply P; assumption.
  Qed.
  Lemma window_unmapped ls text n : bufferLen (layout_new ls) <= n \/ length text <= n ->
    unmapped ls (firstn n text) <-> unmapped ls text.
  Proof.
    intros Hn. unfold unmapped.
    assert (P : forall t, assigned ls t -> ((exists q, firstn n text = t ++ q) <-> (exists q, text = t ++ q))).
    { intros t Ht. pose proof (bufferLen_ge Ht) as Hlen. destruct Hn as [Hn|Hn].
      - split.
        + intros [q Hq]. exists (q ++ skipn n text). rewrite app_assoc, <- Hq, firstn_skipn. reflexivity.
        + intros [q ->]. exists (firstn (n - length t) q). rewrite firstn_app. f_equal. apply firstn_all2. lia.
      - rewrite firstn_all2 by exact Hn. tauto. }
    split; intros H t Ht Hq; apply (H t Ht), P; assumption.
  Qed.

  Theorem type_greedy ls : full_reads read rest -> layers_ok ls -> (exists t, assigned ls t) ->
    fingered fm ls -> length fm < 128 ->
    forall fuel r buf last, length (buf ++ rest r) < fuel -> length buf <= bufferLen (layout_new ls) -> prev_fingered fm last ->
    greedy ls (buf ++ rest r) (map ev_token (fst (fst (type_loop fm R read (layout_new ls) fuel r buf last)))).
  Proof.
    intros Hfull Hok Hex Hf Hsmall. pose proof (bufferLen_pos Hok Hex) as Hpos.
    induction fuel as [|fuel IH]; intros r buf last Hfuel Hbuf Hlast; [lia|].
    rewrite type_loop_eq. destruct (Hfull r (bufferLen (layout_new ls) - length buf)) as (Hs & Hr).
    destruct (read r (bufferLen (layout_new ls) - length buf)) as [s r']; cbn [fst snd] in Hs, Hr.
    assert (Hall : (buf ++ s) ++ rest r' = buf ++ rest r) by (rewrite <- app_assoc, Hs, Hr, firstn_skipn; reflexivity).
    assert (Hwin : buf ++ s = firstn (bufferLen (layout_new ls)) (buf ++ rest r)).
    { rewrite firstn_app, Hs. f_equal. symmetry. apply firstn_all2. exact Hbuf. }
    destruct (buf ++ s) as [|ch rst] eqn:Ebuf.
    - apply app_eq_nil in Ebuf as [-> ->]. cbn [app] in *. destruct (rest r) as [|x t] eqn:Er; [constructor|].
      exfalso. destruct (bufferLen (layout_new ls)); [lia|]. cbn in Hwin. discriminate.
    - assert (Hblen : length (ch :: rst) <= bufferLen (layout_new ls)).
      { rewrite Hwin, firstn_length. lia. }
      rewrite <- Hall.
      assert (Hlen : length ((ch :: rst) ++ rest r') < S fuel) by (rewrite Hall; exact Hfuel).
      destruct (step (layout_new ls) last (ch :: rst)) as [[m c]|e] eqn:Es.
      + apply step_ok in Es as (Hl & Hm & Hc).
        assert (Hl2 : longest_assigned ls ((ch :: rst) ++ rest r') m).
        { rewrite Hall. rewrite Hwin in Hl. apply window_longest in Hl; [exact Hl|left; lia]. }
        destruct Hl as (_ & [q Hq] & _).
        rewrite Hq in *. rewrite skipn_app, skipn_all, Nat.sub_diag. cbn [skipn app].
        rewrite <- app_assoc in *.
        rewrite !app_length in *. assert (0 < length m) by (destruct m; [congruence|cbn; lia]).
        specialize (IH r' q (Some c)).
        destruct (type_loop fm R read (layout_new ls) fuel r' q (Some c)) as [[es f] l]; cbn [fst map ev_token] in *.
        constructor; [exact Hm|exact Hl2|]. apply IH; [rewrite app_length; lia|lia|eapply ways_fingered; eassumption].
      + pose proof (step_err _ _ Hok Es) as ->.
        assert (Hu : unmapped ls ((ch :: rst) ++ rest r')).
        { apply step_skip in Es; auto. rewrite Hall. rewrite Hwin in Es. apply window_unmapped in Es; [exact Es|left; lia]. }
        specialize (IH r' rst last).
        destruct (type_loop fm R read (layout_new ls) fuel r' rst last) as [[es f] l]; cbn [fst map ev_token length app] in *.
        constructor; [exact Hu|]. apply IH; [lia|lia|exact Hlast].
  Qed.
End Typing.

Lemma full_reads_file {R} (read : R -> nat -> text * R) rest : full_reads read rest -> file_like read rest.
Proof. intros H r n. exists n. destruct (H r n). repeat split; auto. Qed.
Lemma read_full_ok : full_reads read_full (fun t => t).
Proof. intros r n. split; reflexivity. Qed.
Lemma read_short_ok : file_like read_short fst.
Proof.
  intros [t sched] n. destruct sched as [|k ks]; cbn.
  - exists n. repeat split; auto.
  - exists (Nat.min n (S k)). repeat split; auto; lia.
Qed.

(** The greedy segmentation is a function of the text. *)
Lemma longest_unique ls buf a b : longest_assigned ls buf a -> longest_assigned ls buf b -> a = b.
Proof.
  intros (Ha & [q Hq] & Hma) (Hb & [p Hp] & Hmb).
  assert (length a = length b) as E by (apply Nat.le_antisymm; [apply Hmb; eauto|apply Hma; eauto]).
  rewrite Hq in Hp. apply (f_equal (firstn (length a))) in Hp.
  rewrite firstn_app, Nat.sub_diag, firstn_O, app_nil_r, firstn_all in Hp.
  rewrite E, firstn_app, Nat.sub_diag, firstn_O, app_nil_r, firstn_all in Hp. exact Hp.
Qed.
Lemma greedy_inv ls t b : greedy ls t b ->
  match b with
  | [] => t = []
  | TMatch m :: bs => exists r, t = m ++ r /\ m <> [] /\ longest_assigned ls t m /\ greedy ls r bs
  | TSkip c :: bs => exists r, t = c :: r /\ unmapped ls t /\ greedy ls r bs
  end.
Proof. destruct 1; eauto 6. Qed.
Theorem greedy_unique ls t a b : greedy ls t a -> greedy ls t b -> a = b.
Proof.
  intros H. revert b. induction H as [|m r toks Hm Hl H IH|c r toks Hu H IH]; intros b Hb;
    apply greedy_inv in Hb; destruct b as [|[m'|c'] bs].
  - reflexivity.
  - destruct Hb as (r & E & Hm & _). destruct m'; [congruence|discriminate].
  - destruct Hb as (r & E & _). discriminate.
  - destruct m; [congruence|discriminate].
  - destruct Hb as (r' & E & _ & Hl' & Hg). assert (m = m') as <- by (eapply longest_unique; eauto).
    apply app_inv_head in E as ->. f_equal. auto.
  - destruct Hb as (r' & E & Hu & _). exfalso. destruct Hl as (Ha & Hp & _). exact (Hu m Ha Hp).
  - discriminate.
  - destruct Hb as (r' & E & _ & Hl' & Hg). exfalso. destruct Hl' as (Ha & Hp & _). exact (Hu m' Ha Hp).
  - destruct Hb as (r' & E & _ & Hg). inversion E; subst. f_equal. auto.
Qed.

Lemma type_null fm L last t : bufferLen L = 0 -> type_text fm L last t = ([], Done, last).
Proof. intros E. unfold type_text. cbn [type_loop]. rewrite E. reflexivity. Qed.
