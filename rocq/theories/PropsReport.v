(** C49, C50: number formatting. *)
From Verif Require Import Base TextModel ReportModel.
Open Scope string_scope.
Open Scope list_scope.
Set Implicit Arguments.
Unset Strict Implicit.

(** * Rounding *)
(** [r] is a/b rounded to an integer, half to even. *)
Definition rounded (a b r : Z) : Prop :=
  (2 * Z.abs (a - r * b) <= b)%Z /\ ((2 * Z.abs (a - r * b) = b)%Z -> Z.even r = true).
Lemma round_he_rounded a b : (0 < b)%Z -> rounded a b (round_he a b).
Proof.
  intros Hb. unfold rounded, round_he. pose proof (Z.div_mod a b ltac:(lia)) as E. pose proof (Z.mod_pos_bound a b Hb) as B.
  set (q := (a / b)%Z) in *. set (r := (a mod b)%Z) in *. clearbody q r.
  assert (Es : Z.even (q + 1) = negb (Z.even q)) by (rewrite Z.even_add; destruct (Z.even q); reflexivity).
  destruct (Z.ltb_spec (2 * r) b); [|destruct (Z.ltb_spec b (2 * r)); [|destruct (Z.even q) eqn:Ev]].
  - split; [|intros K]; [|exfalso]; nia.
  - split; [|intros K]; [|exfalso]; nia.
  - split; [nia|intros _; exact Ev].
  - split; [nia|]. intros _. rewrite Es. reflexivity.
Qed.
Lemma rounded_unique a b r r' : (0 < b)%Z -> rounded a b r -> rounded a b r' -> r = r'.
Proof.
  intros Hb [H1 H2] [H3 H4]. destruct (Z.lt_trichotomy r r') as [L|[E|L]]; [|exact E|].
  - assert (r' = r + 1)%Z by nia. subst r'. assert (Es : Z.even (r + 1) = negb (Z.even r)) by (rewrite Z.even_add; destruct (Z.even r); reflexivity).
    rewrite H2, H4 in Es by nia. discriminate.
  - assert (r = r' + 1)%Z by nia. subst r. assert (Es : Z.even (r' + 1) = negb (Z.even r')) by (rewrite Z.even_add; destruct (Z.even r'); reflexivity).
    rewrite H2, H4 in Es by nia. discriminate.
Qed.

(** * C49 *)
(** The value c / 10^s shown as [r] tenths of the [k]th unit: rounded to the nearest
    tenth; [k] is the first unit in which it is below 999.95, and at most 3. *)
Definition shown (c : Z) (s k : nat) (r : Z) : Prop :=
  let unit i := (pow10 s * 1000 ^ Z.of_nat i)%Z in
  k <= 3 /\ rounded (10 * c) (unit k) r /\
  (k < 3 -> (20 * c < 19999 * unit k)%Z) /\ (0 < k -> (19999 * unit (k - 1)%nat <= 20 * c)%Z).
Lemma pow10_pos n : (0 < pow10 n)%Z.
Proof. unfold pow10. apply Z.pow_pos_nonneg; lia. Qed.
Lemma pow10_add n m : pow10 (n + m) = (pow10 n * pow10 m)%Z.
Proof. unfold pow10. rewrite Nat2Z.inj_add, Z.pow_add_r by lia. reflexivity. Qed.
Lemma excess0 fuel c : (Z.abs c < pow10 28)%Z -> excess fuel 0 c = 0.
Proof. intros H. destruct fuel; cbn [excess]; [reflexivity|]. change (28 + 0) with 28. destruct (Z.ltb_spec (Z.abs c) (pow10 28)); [reflexivity|lia]. Qed.
Lemma round_he_1 a : round_he a (pow10 0) = a.
Proof.
  change (pow10 0) with 1%Z. unfold round_he. rewrite Z.div_1_r, Z.mod_1_r. reflexivity.
Qed.
Lemma ddiv_exact c s : (Z.abs c < pow10 28)%Z -> ddiv1000 (mkDec c s) = mkDec c (s + 3).
Proof.
  intros H. unfold ddiv1000. cbn [dcoef dscale]. rewrite (excess0 _ H), round_he_1, Nat.sub_0_r. reflexivity.
Qed.
Lemma round_he_ge a b : (0 < b)%Z -> (10000 <= round_he a b)%Z <-> (19999 * b <= 2 * a)%Z.
Proof.
  intros Hb. destruct (round_he_rounded a Hb) as [H1 H2]. set (r := round_he a b) in *. clearbody r. split; intros H.
  - nia.
  - destruct (Z.le_gt_cases 10000 r) as [L|L]; [exact L|]. exfalso. assert (r = 9999)%Z by nia. subst r.
    assert (K : (2 * Z.abs (a - 9999 * b) = b)%Z) by nia. apply H2 in K. discriminate.
Qed.
Lemma dround_small c s : (0 <= c < pow10 27)%Z -> dround1 (mkDec c s) = Some (round_he (10 * c) (pow10 s)).
Proof.
  intros H. unfold dround1. cbn [dcoef dscale]. pose proof (pow10_pos s) as Hs. destruct (round_he_rounded (10 * c) Hs) as [H1 _].
  set (r := round_he (10 * c) (pow10 s)) in *. clearbody r.
  assert (B : (Z.abs r < pow10 28)%Z).
  { change (pow10 28) with (10 * pow10 27)%Z. set (p := pow10 27) in *. clearbody p. set (b := pow10 s) in *. clearbody b. nia. }
  destruct (Z.ltb_spec (Z.abs r) (pow10 28)); [reflexivity|lia].
Qed.
Lemma approx_step c s us : (0 <= c < pow10 27)%Z -> forall u, us <> [] ->
  approx_loop (u :: us) (mkDec c s) =
  if (19999 * pow10 s <=? 20 * c)%Z then approx_loop us (mkDec c (s + 3)) else Some (round_he (10 * c) (pow10 s), u).
Proof.
  intros H u Ne. cbn [approx_loop]. rewrite (dround_small s H).
  destruct us as [|v us]; [congruence|]. cbn [List.length Nat.eqb negb]. rewrite andb_true_r.
  rewrite ddiv_exact by (change (pow10 28) with (10 * pow10 27)%Z; lia).
  pose proof (round_he_ge (10 * c) (pow10_pos s)) as G.
  destruct (Z.leb_spec 10000 (round_he (10 * c) (pow10 s))) as [L|L]; destruct (Z.leb_spec (19999 * pow10 s) (20 * c)) as [L'|L']; try reflexivity; exfalso.
  - apply G in L. lia.
  - assert (19999 * pow10 s <= 2 * (10 * c))%Z by lia. apply G in H0. lia.
Qed.
Theorem C49_approx lang us c s : units lang = Ok us -> (0 <= c < pow10 27)%Z ->
  exists k r u, approx lang (mkDec c s) = Ok (Some (r, u)) /\ nth_error us k = Some u /\ shown c s k r.
Proof.
  intros Eu H. assert (El : exists u0 u1 u2 u3, us = [u0; u1; u2; u3]).
  { unfold units in Eu. destruct (eqb lang "en"); [injection Eu as <-; eauto|]. destruct (eqb lang "ar"); [injection Eu as <-; eauto|discriminate]. }
  destruct El as (u0 & u1 & u2 & u3 & ->). unfold approx. rewrite Eu. cbn [bind].
  assert (P : forall k, (pow10 (s + 3 * k) = pow10 s * 1000 ^ Z.of_nat k)%Z).
  { intros k. rewrite pow10_add. f_equal. unfold pow10. rewrite Nat2Z.inj_mul, Z.pow_mul_r by lia. reflexivity. }
  pose proof (P 0) as P0. pose proof (P 1) as P1. pose proof (P 2) as P2. pose proof (P 3) as P3. clear P.
  replace (s + 3 * 0) with s in P0 by lia. cbn [Nat.mul Nat.add] in P1, P2, P3.
  rewrite (approx_step s H) by discriminate.
  destruct (Z.leb_spec (19999 * pow10 s) (20 * c)) as [L0|L0].
  2: { exists 0, (round_he (10 * c) (pow10 s)), u0. split; [reflexivity|]. split; [reflexivity|]. unfold shown. cbv zeta. rewrite <- P0.
       split; [lia|]. split; [apply round_he_rounded, pow10_pos|]. split; [intros _; exact L0|lia]. }
  rewrite (approx_step (s + 3) H) by discriminate.
  destruct (Z.leb_spec (19999 * pow10 (s + 3)) (20 * c)) as [L1|L1].
  2: { exists 1, (round_he (10 * c) (pow10 (s + 3))), u1. split; [reflexivity|]. split; [reflexivity|]. unfold shown. cbv zeta. cbn [Nat.sub]. rewrite <- P1, <- P0.
       split; [lia|]. split; [apply round_he_rounded, pow10_pos|]. split; [intros _; exact L1|intros _; exact L0]. }
  rewrite (approx_step (s + 3 + 3) H) by discriminate. replace (s + 3 + 3) with (s + 6) by lia.
  destruct (Z.leb_spec (19999 * pow10 (s + 6)) (20 * c)) as [L2|L2].
  2: { exists 2, (round_he (10 * c) (pow10 (s + 6))), u2. split; [reflexivity|]. split; [reflexivity|]. unfold shown. cbv zeta. cbn [Nat.sub]. rewrite <- P2, <- P1.
       split; [lia|]. split; [apply round_he_rounded, pow10_pos|]. split; [intros _; exact L2|intros _; exact L1]. }
  cbn [approx_loop]. replace (s + 6 + 3) with (s + 9) by lia. rewrite (dround_small (s + 9) H). cbn [List.length Nat.eqb negb]. rewrite andb_false_r.
  exists 3, (round_he (10 * c) (pow10 (s + 9))), u3. split; [reflexivity|]. split; [reflexivity|]. unfold shown. cbv zeta. cbn [Nat.sub]. rewrite <- P3, <- P2.
  split; [lia|]. split; [apply round_he_rounded, pow10_pos|]. split; [lia|intros _; exact L2].
Qed.
(** The description determines unit and digits. *)
Theorem C49_determined c s k r k' r' : shown c s k r -> shown c s k' r' -> k = k' /\ r = r'.
Proof.
  assert (U : forall i j, i <= j -> (1000 ^ Z.of_nat i <= 1000 ^ Z.of_nat j)%Z) by (intros; apply Z.pow_le_mono_r; lia).
  pose proof (pow10_pos s) as Hs.
  assert (W : forall k k' r r', shown c s k r -> shown c s k' r' -> ~ k < k').
  { intros a b ra rb (A1 & _ & A3 & _) (B1 & _ & _ & B4) L. cbv zeta in *. assert (A : a < 3) by lia. specialize (A3 A).
    assert (B : 0 < b) by lia. specialize (B4 B). assert (E : a <= b - 1) by lia. specialize (U _ _ E). nia. }
  intros H H'. assert (E : k = k'). { pose proof (W _ _ _ _ H H'). pose proof (W _ _ _ _ H' H). lia. }
  split; [exact E|]. subst k'. destruct H as (_ & R & _), H' as (_ & R' & _). cbv zeta in *.
  refine (rounded_unique _ R R'). apply Z.mul_pos_pos; [exact Hs|]. apply Z.pow_pos_nonneg; lia.
Qed.
(** Below 1000 except in the last unit, at least 1 except in the first *)
Theorem C49_range c s k r : (0 <= c)%Z -> shown c s k r -> (k < 3 -> (r < 10000)%Z) /\ (0 < k -> (10 <= r)%Z).
Proof.
  intros Hc (H1 & [R _] & H3 & H4). cbv zeta in *. pose proof (pow10_pos s) as Hs.
  assert (P : (0 < pow10 s * 1000 ^ Z.of_nat k)%Z) by (apply Z.mul_pos_pos; [exact Hs|apply Z.pow_pos_nonneg; lia]). split.
  - intros L. specialize (H3 L). nia.
  - intros L. specialize (H4 L). destruct k as [|k]; [lia|]. cbn [Nat.sub] in H4. rewrite Nat.sub_0_r in H4.
    rewrite Nat2Z.inj_succ, Z.pow_succ_r in R, P by lia. set (p := (1000 ^ Z.of_nat k)%Z) in *. clearbody p.
    assert (P' : (0 < pow10 s * p)%Z) by lia. set (m := (pow10 s * p)%Z) in *.
    replace (pow10 s * (1000 * p))%Z with (1000 * m)%Z in R by (unfold m; ring). clearbody m. nia.
Qed.
(** Larger numbers raise an exception. *)
Theorem C49_huge lang us c : units lang = Ok us -> (pow10 27 <= c)%Z -> approx lang (mkDec c 0) = Ok None.
Proof.
  intros Eu H. unfold approx. rewrite Eu. cbn [bind].
  assert (El : us <> []).
  { unfold units in Eu. destruct (eqb lang "en"); [injection Eu as <-; discriminate|]. destruct (eqb lang "ar"); [injection Eu as <-; discriminate|discriminate]. }
  destruct us as [|u us]; [congruence|]. cbn [approx_loop]. unfold dround1. cbn [dcoef dscale]. rewrite round_he_1.
  destruct (Z.ltb_spec (Z.abs (10 * c)) (pow10 28)) as [L|L]; [|reflexivity]. change (pow10 28) with (10 * pow10 27)%Z in L. lia.
Qed.
Example C49_example : approx "en" (mkDec 999949 0) = Ok (Some (9999%Z, [116; 104; 111; 117; 115; 97; 110; 100]%N)) /\
  approx "en" (mkDec 999950 0) = Ok (Some (10%Z, [109; 105; 108; 108; 105; 111; 110]%N)) /\
  approx "ar" (mkDec 12340500 1) = Ok (Some (12%Z, [0x645; 0x644; 0x64A; 0x648; 0x646]%N)) /\
  approx "en" (mkDec 25 2) = Ok (Some (2%Z, [])).
Proof. repeat split; vm_compute; reflexivity. Qed.

(** * C50 *)
Theorem C50_numspace s : List.length (numspace s) = List.length s /\
  forall i c, nth_error s i = Some c -> nth_error (numspace s) i = Some (if N.eqb c 32 then 0x2007%N else c).
Proof.
  unfold numspace. split; [apply map_length|]. intros i c H. rewrite (map_nth_error _ _ _ H). reflexivity.
Qed.
(** Digits to digits of the same value, the two separators, nothing else *)
Definition arab_char (c d : N) : Prop :=
  (exists v, (v < 10)%N /\ c = (48 + v)%N /\ d = (0x660 + v)%N) \/ (c = 44%N /\ d = 0x66C%N) \/ (c = 46%N /\ d = 0x66B%N) \/
  (d = c /\ ~ (48 <= c <= 57)%N /\ c <> 44%N /\ c <> 46%N).
Lemma arab_one c : arab_char c (arab1 c).
Proof.
  unfold arab1.   destruct (dget arabmap c) as [d|] eqn:E.
  - apply dget_In in E. cbn in E. decompose [or] E; try contradiction;
      match goal with H : (_, _) = (_, _) |- _ => injection H as <- <- end.
    1-10: left; match goal with |- exists v, _ /\ ?c = _ /\ _ => exists (c - 48)%N end; cbn; lia.
    + right; left; auto.
    + right; right; left; auto.
  - right. right. right. split; [reflexivity|].
    assert (K : ~ In c (map fst arabmap)) by (apply dget_None; exact E).
    split; [intros B|split; intros ->; apply K; cbn; tauto].
    apply K. assert (D : (c = 48 \/ c = 49 \/ c = 50 \/ c = 51 \/ c = 52 \/ c = 53 \/ c = 54 \/ c = 55 \/ c = 56 \/ c = 57)%N) by lia.
    cbn. intuition (subst; auto 20).
Qed.
Theorem C50_arabnum s : Forall2 arab_char s (arabnum s).
Proof. induction s as [|c s IH]; cbn; constructor; [apply arab_one|exact IH]. Qed.
(** Nothing is lost for ASCII. *)
Theorem C50_injective s t : Forall (fun c => (c < 128)%N) s -> Forall (fun c => (c < 128)%N) t -> arabnum s = arabnum t -> s = t.
Proof.
  intros Fs. revert t. induction Fs as [|c s Hc Fs IH]; intros [|d t] Ft E; try discriminate; [reflexivity|].
  inversion Ft as [|? ? Hd Ft']; subst. pose proof (f_equal (hd 0%N) E) as E1. pose proof (f_equal (@tl N) E) as E2. cbn [hd tl arabnum map] in E1, E2. f_equal; [|exact (IH _ Ft' E2)].
  pose proof (arab_one c) as A. pose proof (arab_one d) as B. rewrite E1 in A. set (x := arab1 d) in *. clearbody x. clear E1 E.
  unfold arab_char in *. destruct A as [(v & ? & ? & ?)|[[? ?]|[[? ?]|(? & ? & ? & ?)]]], B as [(w & ? & ? & ?)|[[? ?]|[[? ?]|(? & ? & ? & ?)]]]; lia.
Qed.
Example C50_example : arabnum [49; 44; 50; 46; 97]%N = [0x661; 0x66C; 0x662; 0x66B; 97]%N /\ numspace [49; 32; 50]%N = [49; 0x2007; 50]%N.
Proof. split; reflexivity. Qed.
Print Assumptions C49_approx.
Print Assumptions C49_determined.
Print Assumptions C49_range.
Print Assumptions C49_huge.
Print Assumptions C50_numspace.
Print Assumptions C50_arabnum.
Print Assumptions C50_injective.
