(** C82: fractions in the report. *)
From Coq Require Import QArith Qabs.
From Verif Require Import Base TextModel ReportModel.
Close Scope Q_scope.
Open Scope list_scope.
Set Implicit Arguments.
Unset Strict Implicit.

(** * Best approximations, in integers *)
(** |p/q - N/D| <= |p'/q' - N/D| *)
Definition near (N D p q p' q' : Z) : Prop := (Z.abs (p * D - N * q) * q' <= Z.abs (p' * D - N * q') * q)%Z.
Definition best (N D max p q : Z) : Prop :=
  (1 <= q <= max)%Z /\ Z.gcd p q = 1%Z /\
  forall p' q', (1 <= q' <= max)%Z -> near N D p q p' q' /\ (near N D p' q' p q -> (q <= q')%Z).

Lemma frac_new_coprime p q : Z.gcd p q = 1%Z -> frac_new p q = (p, q).
Proof. intros E. unfold frac_new. rewrite E, !Z.div_1_r. reflexivity. Qed.
Lemma gcd_det a b c d : (a * b - c * d = 1 \/ a * b - c * d = -1)%Z -> Z.gcd a c = 1%Z.
Proof.
  intros H. pose proof (Z.gcd_nonneg a c) as G. destruct (Z.gcd_divide_l a c) as [x Hx], (Z.gcd_divide_r a c) as [y Hy].
  set (g := Z.gcd a c) in *. clearbody g.
  assert (E : (g * (x * b - y * d) = 1 \/ g * (x * b - y * d) = -1)%Z) by (subst a c; lia).
  set (z := (x * b - y * d)%Z) in *. clearbody z.
  assert (g <> 0)%Z by (intros ->; lia). assert (z <> 0)%Z by (intros ->; lia).
  destruct E as [E|E]; assert (g <= 1)%Z by nia; lia.
Qed.

(** Loop invariant, after the first turn *)
Definition ld_inv (N D max p0 q0 p1 q1 n d : Z) : Prop :=
  (N = n * p1 + d * p0 /\ D = n * q1 + d * q0 /\ (p1 * q0 - p0 * q1 = 1 \/ p1 * q0 - p0 * q1 = -1) /\
   0 <= d < n /\ 1 <= q1 <= max /\ 0 <= q0 <= q1)%Z.
Lemma ld_d N D max p0 q0 p1 q1 n d : ld_inv N D max p0 q0 p1 q1 n d -> Z.gcd N D = 1%Z -> (max < D)%Z -> (0 < d)%Z.
Proof.
  intros (EN & ED & _ & Hd & Hq & _) G HD. destruct (Z.eq_dec d 0) as [->|]; [|lia]. exfalso.
  assert (n = 1)%Z; [|nia].
  assert (B : (n | Z.gcd N D)%Z) by (apply Z.gcd_greatest; [exists p1|exists q1]; lia).
  rewrite G in B. apply Z.divide_1_r_nonneg in B; lia.
Qed.
Lemma ld_loop_spec N D max fuel : Z.gcd N D = 1%Z -> (max < D)%Z -> forall p0 q0 p1 q1 n d,
  ld_inv N D max p0 q0 p1 q1 n d -> (max - q1 + (if q0 =? 0 then 2 else 1) <= Z.of_nat fuel)%Z ->
  exists p0' q0' p1' q1' n' d', ld_loop fuel max p0 q0 p1 q1 n d = Ok (p0', q0', p1', q1') /\
    ld_inv N D max p0' q0' p1' q1' n' d' /\ (0 < d')%Z /\ (max < q0' + n' / d' * q1')%Z.
Proof.
  intros G HD. induction fuel as [|fuel IH]; intros p0 q0 p1 q1 n d I F.
  - exfalso. destruct I as (_ & _ & _ & _ & Hq & _). destruct (q0 =? 0)%Z; cbn in F; lia.
  - pose proof (ld_d I G HD) as Pd. cbn [ld_loop]. destruct (Z.eqb_spec d 0) as [|_]; [lia|].
    destruct (Z.ltb_spec max (q0 + n / d * q1)) as [B|B].
    + exists p0, q0, p1, q1, n, d. auto.
    + destruct I as (EN & ED & Dt & Hd & Hq & Hq0).
      pose proof (Z.div_mod n d ltac:(lia)) as Em. pose proof (Z.mod_pos_bound n d Pd) as Bm.
      assert (Ha : (1 <= n / d)%Z) by (apply Z.div_le_lower_bound; lia).
      set (a := (n / d)%Z) in *. clearbody a. set (m := (n mod d)%Z) in *. clearbody m.
      apply IH.
      * unfold ld_inv. repeat split; try nia.
      * destruct (Z.eqb_spec q1 0); [lia|]. destruct (Z.eqb_spec q0 0); nia.
Qed.
(** Any fraction in terms of the two neighbours *)
Lemma neighbours p1 q1 P Q s p' q' : (s = 1 \/ s = -1)%Z -> (p1 * Q - P * q1 = s)%Z ->
  exists U V, (p' = V * p1 + U * P /\ q' = V * q1 + U * Q)%Z.
Proof.
  intros Hs E. exists (- s * (p' * q1 - p1 * q'))%Z, (s * (p' * Q - P * q'))%Z.
  assert (s * s = 1)%Z by (destruct Hs; subst s; lia).
  split.
  - replace (s * (p' * Q - P * q') * p1 + - s * (p' * q1 - p1 * q') * P)%Z with (s * p' * (p1 * Q - P * q1))%Z by ring. rewrite E. nia.
  - replace (s * (p' * Q - P * q') * q1 + - s * (p' * q1 - p1 * q') * Q)%Z with (s * q' * (p1 * Q - P * q1))%Z by ring. rewrite E. nia.
Qed.
(** Two neighbours with x between, whose denominators sum to more than [max]:
    their distances are d/q1 and e/Q. *)
Lemma between N D max p1 q1 P Q s d e : (s = 1 \/ s = -1)%Z -> (p1 * Q - P * q1 = s)%Z ->
  (N * q1 - D * p1 = - s * d)%Z -> (N * Q - D * P = s * e)%Z -> (0 < d)%Z -> (0 < e)%Z -> (1 <= q1)%Z -> (1 <= Q)%Z -> (max < q1 + Q)%Z ->
  forall p' q', (1 <= q' <= max)%Z -> exists U V, (q' = V * q1 + U * Q)%Z /\ (Z.abs (p' * D - N * q') = Z.abs (V * d - U * e))%Z /\
    ((1 <= V /\ U <= 0) \/ (V <= 0 /\ 1 <= U))%Z.
Proof.
  intros Hs Ed E1 E2 Hd He Hq HQ HM p' q' Hq'. destruct (neighbours p' q' Hs Ed) as (U & V & Ep & Eq).
  exists U, V. split; [exact Eq|]. split.
  - rewrite Ep, Eq. replace ((V * p1 + U * P) * D - N * (V * q1 + U * Q))%Z with (V * - (N * q1 - D * p1) + U * - (N * Q - D * P))%Z by ring.
    rewrite E1, E2. destruct Hs as [-> | ->]; [|rewrite <- Z.abs_opp]; f_equal; ring.
  - destruct (Z_le_gt_dec V 0) as [A|A], (Z_le_gt_dec U 0) as [B|B]; [exfalso; nia|right; lia|left; lia|exfalso; nia].
Qed.
Lemma abs_s s z : (s = 1 \/ s = -1)%Z -> (0 <= z)%Z -> Z.abs (s * z) = z.
Proof. intros [-> | ->]; lia. Qed.
(** Arithmetic of the two cases below *)
Lemma case_same d e q1 Q U V : (0 < d -> 0 < e -> 1 <= q1 -> 1 <= Q -> 1 <= V -> U <= 0 ->
  d * (V * q1 + U * Q) <= Z.abs (V * d - U * e) * q1 /\
  (Z.abs (V * d - U * e) * q1 <= d * (V * q1 + U * Q) -> q1 <= V * q1 + U * Q))%Z.
Proof.
  intros Hd He Hq HQ HV HU. assert (A : (0 <= V * d)%Z) by nia. assert (B : (U * e <= 0)%Z) by nia.
  rewrite Z.abs_eq by lia. assert (K : (0 < d * Q + e * q1)%Z) by nia. assert (X : (U * (d * Q + e * q1) <= 0)%Z) by (apply Z.mul_nonpos_nonneg; lia).
  split; [lia|]. intros T. assert (U = 0)%Z as ->; [|nia].
  assert (Y : (0 <= U * (d * Q + e * q1))%Z) by lia. destruct (Z.eq_dec U 0); [assumption|]. exfalso. assert (U * (d * Q + e * q1) < 0)%Z by (apply Z.mul_neg_pos; lia). lia.
Qed.
Lemma case_other d e q1 Q U V : (0 < d -> 0 < e -> 1 <= q1 -> 1 <= Q -> V <= 0 -> 1 <= U -> d * Q <= e * q1 -> (e * q1 = d * Q -> q1 <= Q) ->
  d * (V * q1 + U * Q) <= Z.abs (V * d - U * e) * q1 /\
  (Z.abs (V * d - U * e) * q1 <= d * (V * q1 + U * Q) -> q1 <= V * q1 + U * Q))%Z.
Proof.
  intros Hd He Hq HQ HV HU HC HT. assert (A : (V * d <= 0)%Z) by (apply Z.mul_nonpos_nonneg; lia). assert (B : (0 < U * e)%Z) by (apply Z.mul_pos_pos; lia).
  rewrite Z.abs_neq by lia. assert (K : (0 < d * q1)%Z) by (apply Z.mul_pos_pos; lia).
  assert (X : (V * (d * q1) <= 0)%Z) by (apply Z.mul_nonpos_nonneg; lia).
  assert (Y : (0 <= U * (e * q1 - d * Q))%Z) by (apply Z.mul_nonneg_nonneg; lia).
  split; [lia|]. intros T. assert (V * (d * q1) = 0)%Z by lia. assert (V = 0)%Z as -> by (apply Z.mul_eq_0 in H; lia).
  assert (Z0 : (U * (e * q1 - d * Q) = 0)%Z) by lia. apply Z.mul_eq_0 in Z0. destruct Z0; [lia|]. specialize (HT ltac:(lia)).
  assert (1 * Q <= U * Q)%Z by (apply Z.mul_le_mono_nonneg_r; lia). lia.
Qed.
Lemma limit_best N D max : (0 < D)%Z -> Z.gcd N D = 1%Z -> (1 <= max)%Z ->
  exists p q, limit_denominator (N, D) max = Ok (p, q) /\ best N D max p q.
Proof.
  intros HD G Hm. unfold limit_denominator. destruct (Z.ltb_spec max 1) as [|_]; [lia|]. cbn [fst snd].
  destruct (Z.leb_spec D max) as [L|L].
  { exists N, D. split; [reflexivity|]. split; [lia|]. split; [exact G|]. intros p' q' Hq'. unfold near.
    replace (N * D - N * D)%Z with 0%Z by ring. cbn [Z.abs Z.mul]. split; [nia|]. intros K.
    assert (E : (p' * D = N * q')%Z) by nia.
    assert (DV : (D | q')%Z). { apply (Z.gauss D N); [exists p'; lia|]. rewrite Z.gcd_comm. exact G. }
    apply Z.divide_pos_le in DV; lia. }
  replace (Z.to_nat max + 3) with (S (Z.to_nat max + 2)) by lia. cbn [ld_loop].
  destruct (Z.eqb_spec D 0) as [|_]; [lia|]. replace (1 + N / D * 0)%Z with 1%Z by ring. destruct (Z.ltb_spec max 1) as [|_]; [lia|].
  destruct (@ld_loop_spec N D max (Z.to_nat max + 2) G L 1 0 (0 + N / D * 1) 1 D (N - N / D * D)) as (p0 & q0 & p1 & q1 & n & d & -> & I & Hd & B).
  { pose proof (Z.div_mod N D ltac:(lia)) as Em. pose proof (Z.mod_pos_bound N D HD) as Bm. set (a := (N / D)%Z) in *. clearbody a.
    set (m := (N mod D)%Z) in *. clearbody m. unfold ld_inv. repeat split; try nia. }
  { destruct (Z.eqb_spec 0 0); lia. }
  cbn [bind]. destruct I as (EN & ED & Dt & Hdn & Hq1 & Hq0).
  pose proof (Z.div_mod (max - q0) q1 ltac:(lia)) as Em. pose proof (Z.mod_pos_bound (max - q0) q1 ltac:(lia)) as Bm.
  pose proof (Z.div_pos (max - q0) q1 ltac:(lia) ltac:(lia)) as Kp.
  pose proof (Z.div_mod n d ltac:(lia)) as En. pose proof (Z.mod_pos_bound n d Hd) as Bn.
  set (k := ((max - q0) / q1)%Z) in *. clearbody k. set (r := ((max - q0) mod q1)%Z) in *. clearbody r.
  set (a := (n / d)%Z) in *. clearbody a. set (r' := (n mod d)%Z) in *. clearbody r'.
  assert (Hk : (k + 1 <= a)%Z) by nia.
  set (P := (p0 + k * p1)%Z). set (Q := (q0 + k * q1)%Z).
  assert (HQ : (1 <= Q <= max)%Z). { unfold Q. split; [|nia]. destruct (Z.eq_dec q0 0) as [->|]; [|nia]. assert (1 <= k)%Z by nia. nia. }
  assert (HM : (max < q1 + Q)%Z) by (unfold Q; nia).
  set (s := (p1 * q0 - p0 * q1)%Z) in *. assert (Hs : (s = 1 \/ s = -1)%Z) by exact Dt.
  assert (Es : (p1 * Q - P * q1 = s)%Z) by (unfold P, Q, s; ring).
  set (e := (n - k * d)%Z). assert (He : (0 < e)%Z) by (unfold e; nia).
  assert (E1 : (N * q1 - D * p1 = - s * d)%Z) by (subst N D; unfold s; ring).
  assert (E2 : (N * Q - D * P = s * e)%Z) by (subst N D; unfold s, e, P, Q; ring).
  assert (G1 : Z.gcd p1 q1 = 1%Z). { apply (@gcd_det p1 Q q1 P). lia. }
  assert (G2 : Z.gcd P Q = 1%Z). { apply (@gcd_det P q1 Q p1). lia. }
  rewrite (frac_new_coprime G1), (frac_new_coprime G2).
  pose proof (@between N D max p1 q1 P Q s d e Hs Es E1 E2 Hd He ltac:(lia) ltac:(lia) HM) as Bt.
  assert (A1 : Z.abs (p1 * D - N * q1) = d). { replace (p1 * D - N * q1)%Z with (s * d)%Z by lia. apply abs_s; [exact Hs|lia]. }
  assert (A2 : Z.abs (P * D - N * Q) = e). { replace (P * D - N * Q)%Z with (- s * e)%Z by lia. apply abs_s; lia. }
  assert (TQ : (e * q1 = d * Q)%Z -> (q1 <= Q)%Z).
  { intros T. destruct (Z.eq_dec k 0) as [K0|K0].
    - exfalso. unfold e, Q in T. rewrite K0 in T.
      assert ((d + 1) * q1 <= n * q1)%Z by (apply Z.mul_le_mono_nonneg_r; lia).
      assert (d * q0 <= d * q1)%Z by (apply Z.mul_le_mono_nonneg_l; lia). lia.
    - assert (0 <= (k - 1) * q1)%Z by (apply Z.mul_nonneg_nonneg; lia). unfold Q. lia. }
  clearbody P Q e s. clear EN Em En Dt.
  unfold frac_le, frac_dist. cbn [fst snd]. rewrite A1, A2.
  destruct (Z.leb_spec (d * (Q * D)) (e * (q1 * D))) as [C|C].
  - assert (C' : (d * Q <= e * q1)%Z). { apply (Z.mul_le_mono_pos_r _ _ D HD). lia. }
    exists p1, q1. split; [reflexivity|]. split; [lia|]. split; [exact G1|]. intros p' q' Hq'.
    destruct (Bt p' q' Hq') as (U & V & -> & Ea & [[HV HU]|[HV HU]]); unfold near; rewrite A1, Ea.
    + apply case_same; lia.
    + apply case_other; lia.
  - assert (C' : (e * q1 < d * Q)%Z). { apply (Z.mul_lt_mono_pos_r D _ _ HD). lia. }
    exists P, Q. split; [reflexivity|]. split; [lia|]. split; [exact G2|]. intros p' q' Hq'.
    destruct (Bt p' q' Hq') as (U & V & -> & Ea & [[HV HU]|[HV HU]]); unfold near; rewrite A2, Ea.
    + replace (V * q1 + U * Q)%Z with (U * Q + V * q1)%Z by ring. replace (V * d - U * e)%Z with (- (U * e - V * d))%Z by ring. rewrite Z.abs_opp.
      apply case_other; lia.
    + replace (V * q1 + U * Q)%Z with (U * Q + V * q1)%Z by ring. replace (V * d - U * e)%Z with (- (U * e - V * d))%Z by ring. rewrite Z.abs_opp.
      apply case_same; lia.
Qed.

(** * Decimal numbers, read back *)
Definition digit (c : N) : Prop := (48 <= c <= 57)%N.
Definition value (t : text) : N := fold_left (fun a c => (10 * a + (c - 48))%N) t 0%N.
(** [t] is the decimal form of [n] without superfluous zeros *)
Definition decimal (n : N) (t : text) : Prop :=
  Forall digit t /\ value t = n /\ (t = [48%N] \/ exists c r, t = c :: r /\ c <> 48%N).
Definition decimal_int (z : Z) (t : text) : Prop :=
  if (z <? 0)%Z then exists r, t = 45%N :: r /\ decimal (Z.to_N (- z)) r else decimal (Z.to_N z) t.

Lemma value_app a b : value (a ++ b) = (value a * 10 ^ N.of_nat (List.length b) + value b)%N.
Proof.
  unfold value. rewrite fold_left_app. generalize (fold_left (fun a c => (10 * a + (c - 48))%N) a 0%N) as x.
  intros x. revert x. induction b as [|c b IH]; intros x.
  - cbn. lia.
  - cbn [fold_left List.length]. rewrite (IH (10 * x + (c - 48))%N), (IH (10 * 0 + (c - 48))%N).
    rewrite Nat2N.inj_succ, N.pow_succ_r'. lia.
Qed.
Lemma digits_spec fuel : forall n acc, (n < 2 ^ N.of_nat fuel)%N -> (0 < fuel)%nat ->
  exists t, digits_of fuel n acc = t ++ acc /\ decimal n t.
Proof.
  induction fuel as [|fuel IH]; intros n acc B F; [lia|]. cbn [digits_of].
  assert (M : (n mod 10 < 10)%N) by (apply N.mod_lt; lia).
  pose proof (N.div_mod n 10 ltac:(lia)) as E.
  destruct (N.eqb_spec (n / 10) 0) as [Z|Z].
  - exists [(48 + n mod 10)%N]. split; [reflexivity|]. split; [|split].
    + constructor; [unfold digit; lia|constructor].
    + unfold value. cbn [fold_left]. lia.
    + destruct (N.eq_dec (n mod 10) 0) as [->|]; [left; reflexivity|right]. eexists; eexists; split; [reflexivity|lia].
  - assert (B' : (n / 10 < 2 ^ N.of_nat fuel)%N).
    { rewrite Nat2N.inj_succ, N.pow_succ_r' in B. lia. }
    assert (F' : (0 < fuel)%nat) by (destruct fuel; [cbn in B'; lia|lia]).
    destruct (IH (n / 10)%N ((48 + n mod 10)%N :: acc) B' F') as (t & Et & Dg & V & L).
    exists (t ++ [(48 + n mod 10)%N]). split; [rewrite Et, <- app_assoc; reflexivity|]. split; [|split].
    + apply Forall_app. split; [exact Dg|]. constructor; [unfold digit; lia|constructor].
    + rewrite value_app, V. unfold value. cbn [fold_left List.length N.of_nat]. change (10 ^ N.of_nat 1)%N with 10%N. lia.
    + destruct L as [->|(c & r & -> & Hc)].
      * exfalso. apply Z. rewrite <- V. reflexivity.
      * right. exists c, (r ++ [(48 + n mod 10)%N]). split; [reflexivity|exact Hc].
Qed.
Lemma size_bound n : (n < 2 ^ N.of_nat (S (N.size_nat n)))%N.
Proof.
  rewrite Nat2N.inj_succ, N.pow_succ_r'. destruct n as [|p]; [reflexivity|].
  pose proof (N.size_gt (N.pos p)) as H.
  assert (E : N.size (N.pos p) = N.of_nat (N.size_nat (N.pos p))).
  { clear H. induction p as [p IH|p IH|]; [| |reflexivity];
      change (N.size_nat (N.pos p~1)) with (S (N.size_nat (N.pos p))) || change (N.size_nat (N.pos p~0)) with (S (N.size_nat (N.pos p)));
      rewrite Nat2N.inj_succ, <- IH; reflexivity. }
  rewrite <- E. lia.
Qed.
Theorem C82_digits z : decimal_int z (str_int z).
Proof.
  unfold decimal_int, str_int. destruct (@digits_spec (S (N.size_nat (Z.abs_N z))) (Z.abs_N z) [] (size_bound (Z.abs_N z))) as (t & E & Dc); [lia|].
  rewrite E, app_nil_r. destruct (Z.ltb_spec z 0).
  - exists t. split; [reflexivity|]. replace (Z.to_N (- z)) with (Z.abs_N z) by lia. exact Dc.
  - cbn [app]. replace (Z.to_N z) with (Z.abs_N z) by lia. exact Dc.
Qed.
(** The reading of a decimal number is unique *)
Theorem C82_readable z z' : str_int z = str_int z' -> z = z'.
Proof.
  intros E. pose proof (C82_digits z) as A. pose proof (C82_digits z') as B. rewrite E in A. clear E.
  unfold decimal_int in *. set (t := str_int z') in *. clearbody t.
  destruct (Z.ltb_spec z 0), (Z.ltb_spec z' 0).
  - destruct A as (r & -> & _ & A & _), B as (r' & E & _ & B & _). injection E as <-. lia.
  - destruct A as (r & -> & _), B as (B & _). inversion B as [|? ? X]; subst. unfold digit in X. lia.
  - destruct B as (r & -> & _), A as (A & _). inversion A as [|? ? X]; subst. unfold digit in X. lia.
  - destruct A as (_ & A & _), B as (_ & B & _). lia.
Qed.

(** * The fraction shown, among the rational numbers *)
(** p/q *)
Definition ratio (p q : Z) : Q := Qmake p (Z.to_pos q).
Definition error (x : Q) (p q : Z) : Q := Qabs (ratio p q - x)%Q.
Definition lowest (p q : Z) : Prop := forall g, (1 <= g -> (g | p) -> (g | q) -> g = 1)%Z.
(** Nothing with such a small denominator is nearer to [x], and what is as
    near has no smaller denominator *)
Definition nearest (x : Q) (max p q : Z) : Prop :=
  (1 <= q <= max)%Z /\ lowest p q /\
  forall p' q', (1 <= q' <= max)%Z -> (error x p q <= error x p' q')%Q /\ (error x p q == error x p' q' -> (q <= q')%Z)%Q.

Lemma near_error N D p q p' q' : (0 < D -> 1 <= q -> 1 <= q' ->
  (near N D p q p' q' <-> Qle (error (ratio N D) p q) (error (ratio N D) p' q')))%Z.
Proof.
  intros HD Hq Hq'. unfold near, error, ratio, Qle, Qabs, Qminus, Qplus, Qopp. cbn [Qnum Qden].
  rewrite !Pos2Z.inj_mul, !Z2Pos.id by lia.
  replace (p * D + - N * q)%Z with (p * D - N * q)%Z by lia. replace (p' * D + - N * q')%Z with (p' * D - N * q')%Z by lia.
  set (a := Z.abs (p * D - N * q)). set (b := Z.abs (p' * D - N * q')). clearbody a b.
  replace (a * (q' * D))%Z with (a * q' * D)%Z by lia. replace (b * (q * D))%Z with (b * q * D)%Z by lia.
  rewrite <- Z.mul_le_mono_pos_r by lia. reflexivity.
Qed.
Lemma best_nearest N D max p q : (0 < D)%Z -> best N D max p q -> nearest (ratio N D) max p q.
Proof.
  intros HD (Hq & G & H). split; [exact Hq|split].
  - intros g Hg Hp Hq'. assert (B : (g | Z.gcd p q)%Z) by (apply Z.gcd_greatest; assumption).
    rewrite G in B. apply Z.divide_1_r_nonneg in B; lia.
  - intros p' q' Hq'. destruct (H p' q' Hq') as [A B]. split.
    + apply near_error; [lia..|exact A].
    + intros E. apply B. apply near_error; [lia..|]. rewrite E. apply Qle_refl.
Qed.

Theorem C82_fraction N D max : (0 < D)%Z -> Z.gcd N D = 1%Z -> (1 <= max)%Z ->
  exists p q, fraction (N, D) max = Ok (str_int p ++ [0x2044%N] ++ str_int q) /\ nearest (ratio N D) max p q.
Proof.
  intros HD G HM. destruct (limit_best HD G HM) as (p & q & E & B). exists p, q. split.
  - unfold fraction. rewrite E. reflexivity.
  - apply best_nearest; assumption.
Qed.
Lemma half N D m : (0 < D -> 1 <= m -> exists p, 2 * Z.abs (p * D - N * m) <= D)%Z.
Proof.
  intros HD Hm. exists ((2 * (N * m) + D) / (2 * D))%Z.
  pose proof (Z.div_mod (2 * (N * m) + D) (2 * D) ltac:(lia)) as E.
  pose proof (Z.mod_pos_bound (2 * (N * m) + D) (2 * D) ltac:(lia)) as B. lia.
Qed.
(** Nearest fractions are off by no more than half of 1/max *)
Theorem C82_error x max p q : (1 <= max)%Z -> nearest x max p q -> (error x p q <= 1 # (2 * Z.to_pos max))%Q.
Proof.
  intros HM (Hq & _ & H). destruct x as [N D].
  destruct (@half N (Zpos D) max ltac:(lia) HM) as (p' & B).
  destruct (H p' max ltac:(lia)) as [A _]. eapply Qle_trans; [exact A|].
  unfold error, ratio, Qle, Qabs, Qminus, Qplus, Qopp. cbn [Qnum Qden].
  rewrite !Pos2Z.inj_mul, !Z2Pos.id by lia.
  replace (p' * Zpos D + - N * max)%Z with (p' * Zpos D - N * max)%Z by lia.
  set (a := Z.abs (p' * Zpos D - N * max)) in *. clearbody a. nia.
Qed.
(** A fraction that fits is shown as it is *)
Theorem C82_exact N D max : (0 < D <= max)%Z ->
  fraction (N, D) max = Ok (str_int N ++ [0x2044%N] ++ str_int D).
Proof.
  intros H. unfold fraction, limit_denominator. cbn [fst snd].
  destruct (Z.ltb_spec max 1); [lia|]. destruct (Z.leb_spec D max); [reflexivity|lia].
Qed.
Theorem C82_invalid x max : (max < 1)%Z <-> fraction x max = Raise ValueError.
Proof.
  unfold fraction, limit_denominator. destruct (Z.ltb_spec max 1) as [H|H]; [split; [reflexivity|intros; exact H]|].
  split; [lia|]. intros X. exfalso.
  destruct (snd x <=? max)%Z; [discriminate X|].
  assert (L : forall fuel p0 q0 p1 q1 n d, ld_loop fuel max p0 q0 p1 q1 n d <> Raise ValueError).
  { induction fuel as [|f IH]; intros; cbn [ld_loop]; [intros Y; discriminate Y|].
    destruct (d =? 0)%Z; [intros Y; discriminate Y|]. destruct (max <? _)%Z; [intros Y; discriminate Y|apply IH]. }
  specialize (L (Z.to_nat max + 3)%nat 0 1 1 0 (fst x) (snd x))%Z.
  destruct (ld_loop _ _ _ _ _ _ _ _) as [[[[p0 q0] p1] q1]|e]; cbn [bind] in X; [discriminate X|]. congruence.
Qed.
(** 0.0137 as a float, and pi *)
Example C82_example :
  fraction (7896034967066257, 576460752303423488)%Z 100 = Ok (map N.of_nat [49; 8260; 55; 51])
  /\ fraction (884279719003555, 281474976710656)%Z 10 = Ok (map N.of_nat [50; 50; 8260; 55])
  /\ fraction (-884279719003555, 281474976710656)%Z 1000 = Ok (map N.of_nat [45; 51; 53; 53; 8260; 49; 49; 51]).
Proof. repeat split; vm_compute; reflexivity. Qed.
(** With the default of 10, which index.html:391 uses for "… of all alif uses",
    a share of less than one twentieth is shown as zero *)
Theorem C82_small_share N D : (0 < D)%Z -> Z.gcd N D = 1%Z -> (0 <= 20 * N < D)%Z ->
  fraction (N, D) 10 = Ok (map N.of_nat [48; 8260; 49]).
Proof.
  intros HD G H. destruct (C82_fraction HD G (max := 10) ltac:(lia)) as (p & q & E & Hq & L & Hn).
  assert (A : p = 0%Z).
  { destruct (Hn 0%Z q Hq) as [A _]. apply near_error in A; [|lia..]. unfold near in A.
    destruct (Z.eq_dec p 0) as [|P]; [assumption|exfalso].
    assert (Z.abs (p * D - N * q) <= Z.abs (0 * D - N * q))%Z by nia.
    assert (0 <= N * q <= N * 10)%Z by nia.
    assert (D <= p * D \/ p * D <= - D)%Z by nia. lia. }
  subst p. assert (q = 1)%Z as ->.
  { apply L; [lia|apply Z.divide_0_r|apply Z.divide_refl]. }
  rewrite E. vm_compute. reflexivity.
Qed.
Example C82_small_share_example : fraction (7896034967066257, 576460752303423488)%Z 10 = Ok (map N.of_nat [48; 8260; 49]).
Proof. apply C82_small_share; [lia|vm_compute; reflexivity|lia]. Qed.

Print Assumptions C82_digits.
Print Assumptions C82_readable.
Print Assumptions C82_fraction.
Print Assumptions C82_error.
Print Assumptions C82_exact.
Print Assumptions C82_invalid.
Print Assumptions C82_small_share.
