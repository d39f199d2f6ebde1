(** Lemmas about the boxes for hands and fingers. *)
From Coq Require Import QArith Qabs Lqa Ascii Lia.
From Verif Require Import Base LayoutModel TextModel PlotModel ReportModel PropsReport PageModel KlcModel CsrcModel FilesSpec FilesProofs WidgetModel WidgetSpec.
Close Scope Q_scope.
Open Scope string_scope.
Open Scope list_scope.
Unset Implicit Arguments.

(** * Numbers *)
Lemma number_acc t : Forall (fun c => 48 <= c <= 57)%N t -> forall acc v, number 0 t = Some v -> number acc t = Some (acc * 10 ^ N.of_nat (List.length t) + v)%N.
Proof.
  intros F. assert (G : forall a, exists v, forall acc, number (acc + a) t = Some (acc * 10 ^ N.of_nat (List.length t) + v)%N).
  { induction F as [|c t C F IH]; intros a.
    - exists a. intros acc. cbn [number List.length]. rewrite N.pow_0_r. f_equal. lia.
    - destruct (IH (10 * a + (c - 48))%N) as (v & H). exists v. intros acc. cbn [number].
      replace ((48 <=? c) && (c <=? 57))%N with true by (symmetry; apply andb_true_iff; split; apply N.leb_le; lia).
      replace (10 * (acc + a) + (c - 48))%N with (10 * acc + (10 * a + (c - 48)))%N by lia. rewrite H. f_equal.
      cbn [List.length]. rewrite Nat2N.inj_succ, N.pow_succ_r'. lia. }
  intros acc v E. destruct (G 0%N) as (w & H). pose proof (H 0%N) as H0. rewrite N.add_0_l in H0. rewrite E in H0. injection H0 as ->.
  specialize (H acc). rewrite N.add_0_r in H. rewrite H. f_equal; lia.
Qed.
Lemma digits_length fuel : forall n acc k, 1 <= k -> (n < 10 ^ N.of_nat k)%N -> List.length (digits fuel 10 false n acc) <= k + List.length acc.
Proof.
  induction fuel as [|fuel IH]; intros n acc k K L; cbn [digits]; [lia|]. destruct (N.eqb_spec (n / 10) 0) as [E|E]; [cbn [List.length]; lia|].
  destruct k as [|[|k]]; [lia| |].
  - change (10 ^ N.of_nat 1)%N with 10%N in L. elim E. apply N.div_small, L.
  - specialize (IH (n / 10)%N (digit false (n mod 10) :: acc) (S k)). cbn [List.length] in IH. cbn [List.length] in *.
    assert (n / 10 < 10 ^ N.of_nat (S k))%N by (apply N.div_lt_upper_bound; [discriminate|]; rewrite <- N.pow_succ_r', <- Nat2N.inj_succ; exact L).
    assert (H1 : 1 <= S k) by lia. specialize (IH H1 H). lia.
Qed.
Lemma dec_length k y : 1 <= k -> (y < 10 ^ N.of_nat k)%N -> List.length (dec y) <= k.
Proof. intros K L. pose proof (digits_length (S (N.size_nat y)) y [] k K L) as H. cbn [List.length] in H. unfold dec, num. lia. Qed.
Lemma number_zeros m t : number 0 (repeat 48%N m ++ t) = number 0 t.
Proof. induction m as [|m IH]; [reflexivity|]. cbn [repeat app number]. exact IH. Qed.
Lemma zfill_ok k y : 1 <= k -> (y < 10 ^ N.of_nat k)%N -> List.length (zfill k (dec y)) = k /\ number 0 (zfill k (dec y)) = Some y.
Proof.
  intros K L. unfold zfill. split; [|rewrite number_zeros; apply dec_number]. rewrite app_length, repeat_length. pose proof (dec_length k y K L). lia.
Qed.
Lemma zfill_digits k y : Forall (fun c => 48 <= c <= 57)%N (zfill k (dec y)).
Proof. apply Forall_forall. intros c I. apply in_app_or in I as [I|I]; [apply repeat_spec in I; lia|apply (dec_digit _ _ I)]. Qed.
Lemma round_he_nonneg a b : (0 <= a)%Z -> (0 < b)%Z -> (0 <= round_he a b)%Z.
Proof. intros A B. destruct (@round_he_rounded a b B) as [H _]. set (r := round_he a b) in *. clearbody r. nia. Qed.
Lemma near_abs k q z : (0 <= z)%Z -> rounded (Z.abs (Qnum q) * 10 ^ Z.of_nat k) (Zpos (Qden q)) z -> near k q (if (Qnum q <? 0)%Z then (- z)%Z else z).
Proof.
  intros Hz [R E]. unfold near. set (p := (10 ^ Z.of_nat k)%Z) in *. clearbody p. destruct q as [n d]. cbn [Qnum Qden] in *.
  set (s := if (n <? 0)%Z then (- z)%Z else z).
  assert (D : (Qabs ((n # d) * inject_Z p - inject_Z s) == (Z.abs (Z.abs n * p - z * Zpos d) # d))%Q).
  { assert (A : Z.abs (Z.abs n * p - z * Zpos d) = Z.abs (n * p - s * Zpos d)).
    { unfold s. destruct (Z.ltb_spec n 0); [|rewrite (Z.abs_eq n) by lia; reflexivity]. rewrite (Z.abs_neq n) by lia. rewrite <- (Z.abs_opp (n * p - - z * Zpos d)). f_equal. ring. }
    rewrite A. assert (Q1 : ((n # d) * inject_Z p - inject_Z s == (n * p - s * Zpos d # d))%Q) by (unfold Qeq, Qminus, Qplus, Qopp, Qmult, inject_Z; cbn; rewrite ?Pos.mul_1_r; ring).
    rewrite Q1. reflexivity. }
  cbv zeta. rewrite D. split.
  - unfold Qle. cbn. lia.
  - unfold Qeq. cbn. intros H. assert (Z.even z = true) by (apply E; lia). unfold s. destruct (n <? 0)%Z; [rewrite Z.even_opp|]; assumption.
Qed.
Lemma number_fixed n p k : 1 <= k -> p = (10 ^ N.of_nat k)%N -> number 0 (dec (n / p) ++ zfill k (dec (n mod p))) = Some n.
Proof.
  intros S ->. assert (P : (10 ^ N.of_nat k <> 0)%N) by (apply N.pow_nonzero; discriminate).
  rewrite number_app, dec_number. destruct (zfill_ok k (n mod 10 ^ N.of_nat k) S (N.mod_lt _ _ P)) as [L E].
  rewrite (number_acc _ (zfill_digits _ _) _ _ E), L. f_equal. rewrite N.mul_comm. symmetry. apply N.div_mod, P.
Qed.
Lemma free_range x t : (x < 48)%N \/ (57 < x)%N -> Forall (fun c => 48 <= c <= 57)%N t -> free (fun c => c =? x)%N t.
Proof. intros X F c I. rewrite Forall_forall in F. specialize (F c I). apply N.eqb_neq. lia. Qed.
Lemma dec_range n : Forall (fun c => 48 <= c <= 57)%N (dec n).
Proof. apply Forall_forall. intros c I. apply (dec_digit _ _ I). Qed.
Lemma fixed_reads k q : 1 <= k -> exists z, decimal k (fixed k q) = Some z /\ near k q z.
Proof.
  intros S. unfold fixed. cbv zeta. set (p := (10 ^ N.of_nat k)%N). set (r := round_he _ _).
  assert (R0 : (0 <= r)%Z) by (apply round_he_nonneg; lia).
  exists (if (Qnum q <? 0)%Z then (- r)%Z else r). split.
  - assert (P : (p <> 0)%N) by (apply N.pow_nonzero; discriminate).
    assert (C : forall (neg : bool), match cut (fun c => c =? 46)%N (dec (Z.to_N r / p) ++ lit "." ++ zfill k (dec (Z.to_N r mod p))) with
      | ((_ :: _) as a, Some b) => if Nat.eqb (List.length b) k then option_map (fun n => if neg then (- Z.of_N n)%Z else Z.of_N n) (number 0 (a ++ b)) else None
      | _ => None end = Some (if neg then - r else r)%Z).
    { intros neg. change (lit "." ++ ?x) with (46%N :: x). rewrite cut_at by (reflexivity || (apply free_range; [lia|apply dec_range])).
      pose proof (number_fixed (Z.to_N r) p k S eq_refl) as Nf. pose proof (dec_nonempty (Z.to_N r / p)) as Ne.
      destruct (zfill_ok k (Z.to_N r mod p) S (N.mod_lt _ _ P)) as [Lz _]. destruct (dec (Z.to_N r / p)) as [|c t]; [congruence|].
      rewrite Lz, Nat.eqb_refl, Nf. cbn [option_map]. rewrite Z2N.id by exact R0. reflexivity. }
    unfold decimal. destruct (Qnum q <? 0)%Z.
    + change (lit "-" ++ ?x) with (45%N :: x). change ((45 =? 45)%N) with true. cbv iota. apply (C true).
    + cbn [app]. pose proof (dec_digit (Z.to_N r / p)) as Dg. pose proof (dec_nonempty (Z.to_N r / p)) as Ne. pose proof (C false) as C'.
      destruct (dec (Z.to_N r / p)) as [|c t]; [congruence|]. cbn [app] in *. specialize (Dg c (or_introl eq_refl)).
      destruct (N.eqb_spec c 45); [lia|]. exact C'.
  - apply near_abs; [exact R0|]. replace (10 ^ Z.of_nat k)%Z with (Z.of_N p); [apply (@round_he_rounded (Z.abs (Qnum q) * Z.of_N p) (Zpos (Qden q))); reflexivity|].
    unfold p. rewrite N2Z.inj_pow, nat_N_Z. reflexivity.
Qed.
Lemma fixed_free k q x : ((x < 45)%N \/ (57 < x)%N) -> free (fun c => c =? x)%N (fixed k q).
Proof.
  intros X c I. apply N.eqb_neq. unfold fixed in I. cbv zeta in I. apply in_app_or in I as [I|I].
  - destruct (Qnum q <? 0)%Z; [destruct I as [<-|[]]; cbn; lia|destruct I].
  - apply in_app_or in I as [I|I]; [apply dec_digit in I; lia|]. apply in_app_or in I as [I|I]; [destruct I as [<-|[]]; cbn; lia|].
    pose proof (zfill_digits k (Z.to_N (round_he (Z.abs (Qnum q) * Z.of_N (10 ^ N.of_nat k)) (Zpos (Qden q))) mod 10 ^ N.of_nat k)) as F. rewrite Forall_forall in F. specialize (F c I). lia.
Qed.

(** * Boxes *)
Lemma upto_at x a r : free (fun c => c =? x)%N a -> upto x (a ++ x :: r) = Some (a, r).
Proof. intros F. unfold upto. rewrite cut_at by (exact F || apply N.eqb_refl). reflexivity. Qed.
Lemma box_reads class q r : free (fun c => c =? 34)%N class -> exists z, near 3 q z /\ read_box (box class q ++ r) = Some (class, z, r).
Proof.
  intros F. destruct (fixed_reads 3 q ltac:(lia)) as (z & E & Nz). exists z. split; [exact Nz|]. unfold read_box, box. rewrite <- !app_assoc.
  change (lit "<div class=" ++ quote ++ ?x) with ((lit "<div class=" ++ dq) ++ x). rewrite after_app.
  change (quote ++ lit " style=" ++ ?x) with (34%N :: lit " style=" ++ x). rewrite upto_at by exact F.
  change (lit " style=" ++ quote ++ lit "width: " ++ ?x) with ((lit " style=" ++ dq ++ lit "width: ") ++ x). rewrite after_app.
  change (lit "%;" ++ ?x) with (37%N :: lit ";" ++ x). rewrite upto_at by (apply fixed_free; lia). rewrite E.
  change (lit ";" ++ quote ++ lit ">" ++ ?x) with ((lit ";" ++ dq ++ lit ">") ++ x). rewrite after_app. reflexivity.
Qed.
Lemma fingerName_free f : free (fun c => c =? 34)%N (fingerName f).
Proof. intros c I. destruct f; repeat destruct I as [<-|I]; try reflexivity; destruct I. Qed.
Lemma handName_free f : free (fun c => c =? 34)%N (handName f).
Proof. intros c I. destruct f; repeat destruct I as [<-|I]; try reflexivity; destruct I. Qed.
(** What is read of a finger *)
Definition finger_read (x : finger * Q * Q) (y : part) : Prop :=
  fst (fst y) = fingerName (fst (fst x)) /\ near 3 (snd (fst x)) (snd (fst y)) /\ near 2 (snd x) (snd y).
Lemma finger_reads x r : exists y, finger_read x y /\ read_finger (fingerText x ++ r) = Some (y, r).
Proof.
  destruct x as [[f w] s]. destruct (fixed_reads 2 s ltac:(lia)) as (z & E & Nz).
  destruct (box_reads (fingerName f) w (fixed 2 s ++ lit "</div>" ++ r) (fingerName_free f)) as (v & Nv & B).
  exists (fingerName f, v, z). split; [split; [reflexivity|split; assumption]|]. unfold read_finger, fingerText. rewrite <- !app_assoc, B.
  change (lit "</div>" ++ r) with (60%N :: lit "/div>" ++ r). rewrite upto_at by (apply fixed_free; lia). rewrite E, after_app. reflexivity.
Qed.
Lemma fingers_read fs r : forall k, List.length fs < k -> exists l, Forall2 finger_read fs l /\ read_fingers k (concat (map fingerText fs) ++ lit "</div>" ++ r) = Some (l, r).
Proof.
  induction fs as [|x fs IH]; intros [|k] L; cbn [List.length] in L; try lia.
  - exists []. split; [constructor|]. cbn [map concat app read_fingers]. change (lit "</div>" ++ r) with (lit "</div>" ++ r). rewrite after_app. reflexivity.
  - destruct (IH k) as (l & F & E); [lia|]. cbn [map concat]. rewrite <- app_assoc.
    destruct (finger_reads x (concat (map fingerText fs) ++ lit "</div>" ++ r)) as (y & Hy & Ry). exists (y :: l). split; [constructor; assumption|].
    cbn [read_fingers]. assert (A : after (lit "</div>") (fingerText x ++ concat (map fingerText fs) ++ lit "</div>" ++ r) = None) by (destruct x as [[f w] s]; reflexivity).
    rewrite A, Ry, E. reflexivity.
Qed.
Definition hand_read (x : direction * Q * list (finger * Q * Q)) (y : part * list part) : Prop :=
  let '((c, w, s), l) := y in c = handName (fst (fst x)) /\ near 3 (snd (fst x)) w /\ near 2 (snd (fst x)) s /\ Forall2 finger_read (snd x) l.
Lemma fingers_long fs : List.length fs <= List.length (concat (map fingerText fs)).
Proof. induction fs as [|[[f w] s] fs IH]; [reflexivity|]. cbn [map concat List.length]. rewrite app_length. cbn. lia. Qed.
Lemma hand_reads x r : exists y, hand_read x y /\ read_hand (handText x ++ r) = Some (y, r).
Proof.
  destruct x as [[h p] fs]. destruct (fixed_reads 2 p ltac:(lia)) as (z & E & Nz).
  destruct (fingers_read fs (lit "</div>" ++ r) (S (List.length (concat (map fingerText fs) ++ lit "</div>" ++ lit "</div>" ++ r)))) as (l & F & El).
  { rewrite app_length. pose proof (fingers_long fs). lia. }
  match type of El with read_fingers _ ?t = _ => set (rest := t) in * end.
  destruct (box_reads (handName h) p (divClass "hand" ++ fixed 2 p ++ lit "%</div>" ++ divClass "fingers" ++ rest) (handName_free h)) as (v & Nv & B).
  exists ((handName h, v, z), l). split; [split; [reflexivity|split; [exact Nv|split; [exact Nz|exact F]]]|]. unfold read_hand, handText. rewrite <- !app_assoc.
  change (lit "</div></div>" ++ r) with (lit "</div>" ++ lit "</div>" ++ r). fold rest. rewrite B.
  change (divClass "hand") with (lit "<div class=" ++ dq ++ lit "hand" ++ dq ++ lit ">"). rewrite after_app.
  change (lit "%</div>" ++ divClass "fingers" ++ rest) with (37%N :: (lit "</div><div class=" ++ dq ++ lit "fingers" ++ dq ++ lit ">") ++ rest).
  rewrite upto_at by (apply fixed_free; lia). rewrite E, after_app, El, after_app. reflexivity.
Qed.
Lemma widget_reads a x y : exists l z r, read_widget (widget a [x; y]) = Some (l, z, r) /\ hand_read x l /\ near 3 a z /\ hand_read y r.
Proof.
  destruct (fixed_reads 3 a ltac:(lia)) as (z & E & Nz). destruct (hand_reads y (lit "</div>")) as ([r rs] & Hr & Rr).
  destruct (hand_reads x (asymmText a ++ handText y ++ lit "</div>")) as ([l ls] & Hl & Rl).
  exists (l, ls), z, (r, rs). split; [|auto]. unfold read_widget, widget. cbn [map concat]. rewrite app_nil_r, <- !app_assoc.
  match goal with |- context [after ?p (?x1 ++ ?x2 ++ ?x3 ++ ?x4 ++ ?x5 ++ ?x6 ++ ?x7 ++ ?x8 ++ ?x9 ++ ?x10 ++ ?x11 ++ ?x12 ++ ?x13 ++ ?rest)] => change (x1 ++ x2 ++ x3 ++ x4 ++ x5 ++ x6 ++ x7 ++ x8 ++ x9 ++ x10 ++ x11 ++ x12 ++ x13 ++ rest) with (p ++ rest) end.
  rewrite after_app, Rl. unfold asymmText. rewrite <- !app_assoc.
  change (divClass "asymm" ++ lit "<small>Asymmetry: " ++ ?x) with ((lit "<div class=" ++ dq ++ lit "asymm" ++ dq ++ lit "><small>Asymmetry: ") ++ x). rewrite after_app.
  change (lit "</small></div>" ++ ?x) with (60%N :: lit "/small></div>" ++ x). rewrite upto_at by (apply fixed_free; lia).
  rewrite E, after_app, Rr. reflexivity.
Qed.
