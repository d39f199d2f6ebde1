(** Boxes for hands and fingers on the report page. *)
From Coq Require Import QArith Qabs Lqa Ascii Lia.
From Verif Require Import Base LayoutModel TextModel StatsSpec PlotModel PlotSpec PlotProofs PropsTools ReportModel PropsReport PageModel PropsPage KlcModel CsrcModel FilesSpec FilesProofs WidgetModel WidgetSpec WidgetProofs.
Close Scope Q_scope.
Open Scope string_scope.
Open Scope list_scope.
Unset Implicit Arguments.

(** * C105 *)
Lemma near_eq k q q' z : (q == q')%Q -> near k q z -> near k q' z.
Proof. intros E. unfold near. cbv zeta. rewrite E. trivial. Qed.
Lemma near_bounds k q z : near k q z -> (- (1 # 2) <= q * inject_Z (10 ^ Z.of_nat k) - inject_Z z <= 1 # 2)%Q.
Proof. intros [H _]. apply Qabs_Qle_condition in H. exact H. Qed.
Lemma int_bounds a b m : (inject_Z a <= inject_Z m)%Q -> (inject_Z m <= inject_Z b)%Q -> (a <= m <= b)%Z.
Proof. rewrite <- !Zle_Qle. lia. Qed.
(** Two parts of a whole are rounded to parts of the whole. *)
Lemma near_pair k q q' n z z' : (q + q' == inject_Z n)%Q -> Z.even (n * 10 ^ Z.of_nat k) = true -> near k q z -> near k q' z' -> (z + z' = n * 10 ^ Z.of_nat k)%Z.
Proof.
  intros S Ev N N'. pose proof (near_bounds _ _ _ N) as B. pose proof (near_bounds _ _ _ N') as B'. destruct N as [_ E], N' as [_ E']. cbv zeta in E, E'.
  set (P := (10 ^ Z.of_nat k)%Z) in *. clearbody P. set (d := (q * inject_Z P - inject_Z z)%Q) in *. set (d' := (q' * inject_Z P - inject_Z z')%Q) in *.
  set (m := (n * P - (z + z'))%Z).
  assert (Em : (d + d' == inject_Z m)%Q).
  { unfold m, Z.sub. rewrite inject_Z_plus, inject_Z_opp, inject_Z_mult, inject_Z_plus, <- S. unfold d, d'. ring. }
  assert (Bm : (-1 <= m <= 1)%Z).
  { apply int_bounds; rewrite <- Em; [change (inject_Z (-1)) with (- (1))%Q|change (inject_Z 1) with 1%Q]; lra. }
  assert (Half : m = 0%Z \/ (Qabs d == 1 # 2)%Q /\ (Qabs d' == 1 # 2)%Q).
  { destruct (Z.eq_dec m 0) as [|Nm]; [left; assumption|right]. assert (m = 1 \/ m = -1)%Z as [-> | ->] by lia.
    - change (inject_Z 1) with 1%Q in Em. rewrite !Qabs_pos by lra. split; lra.
    - change (inject_Z (-1)) with (- (1))%Q in Em. rewrite !Qabs_neg by lra. split; lra. }
  destruct Half as [M|[H H']]; [unfold m in M; lia|]. specialize (E H). specialize (E' H').
  assert (Z.even m = true) by (unfold m; rewrite Z.even_sub, Z.even_add, Ev, E, E'; reflexivity).
  assert (m = 0 \/ m = 1 \/ m = -1)%Z as [M|[M|M]] by lia; [unfold m in M; lia|rewrite M in *; discriminate|rewrite M in *; discriminate].
Qed.
Definition total (l : list Z) : Z := fold_right Z.add 0%Z l.
(** Many parts: half a unit for each *)
Lemma near_total {A} k (f : A -> Q) (l : list A) zs : Forall2 (fun x z => near k (f x) z) l zs ->
  (Qabs (qtotal f l * inject_Z (10 ^ Z.of_nat k) - inject_Z (total zs)) <= inject_Z (Z.of_nat (List.length l)) * (1 # 2))%Q.
Proof.
  set (P := (10 ^ Z.of_nat k)%Z). intros F. apply Qabs_Qle_condition. induction F as [|x z l zs H F IH].
  - cbn [qtotal fold_right total List.length]. change (inject_Z (Z.of_nat 0)) with 0%Q. change (inject_Z 0) with 0%Q. split; lra.
  - apply near_bounds in H. fold P in H. cbn [List.length]. rewrite Nat2Z.inj_succ. unfold Z.succ. rewrite inject_Z_plus. change (inject_Z 1) with 1%Q.
    change (qtotal f (x :: l)) with (f x + qtotal f l)%Q. change (total (z :: zs)) with (z + total zs)%Z. rewrite inject_Z_plus.
    set (p := inject_Z P) in *. set (n := inject_Z (Z.of_nat (List.length l))) in *. set (t := inject_Z (total zs)) in *. set (s := qtotal f l) in *. set (q := f x) in *. set (y := inject_Z z) in *.
    assert (Rq : ((q + s) * p - (y + t) == (q * p - y) + (s * p - t))%Q) by ring. rewrite !Rq. split; lra.
Qed.
(** A finger is shown *)
Definition finger_shown (fm : list (string * (direction * finger))) (buttons : list (string * Z)) (h : direction) (f : finger) (y : part) : Prop :=
  fst (fst y) = lit match f with LITTLE => "little" | RING => "ring" | MIDDLE => "middle" | INDEX => "index" | THUMB => "thumb" end /\
  near 3 (percent (amount (by_finger fm (h, f)) buttons) (amount (by_hand fm h) buttons)) (snd (fst y)) /\
  near 2 (percent (amount (by_finger fm (h, f)) buttons) (sumZ snd buttons)) (snd y).
Definition hand_shown (fm : list (string * (direction * finger))) (buttons : list (string * Z)) (h : direction) (order : list finger) (y : part * list part) : Prop :=
  let '((c, w, s), l) := y in
  c = lit match h with LEFT => "left" | RIGHT => "right" end /\
  near 3 (percent (amount (by_hand fm h) buttons) (sumZ snd buttons)) w /\ near 2 (percent (amount (by_hand fm h) buttons) (sumZ snd buttons)) s /\
  Forall2 (finger_shown fm buttons h) order l.
Lemma hand_ok fm buttons h p fs y : hand_read (h, p, fs) y -> (p == percent (amount (by_hand fm h) buttons) (sumZ snd buttons))%Q ->
  (forall x, In x fs -> share x == percent (amount (by_finger fm (h, fname x)) buttons) (sumZ snd buttons) /\
     width x == percent (amount (by_finger fm (h, fname x)) buttons) (amount (by_hand fm h) buttons))%Q -> hand_shown fm buttons h (map fname fs) y.
Proof.
  destruct y as [[[c w] s] l]. intros (C & W & S & F) Ep H. split; [exact C|]. cbn [fst snd] in *. split; [eapply near_eq; eassumption|]. split; [eapply near_eq; eassumption|].
  clear W S Ep. induction F as [|x y fs l (N & W & S) F IH]; [constructor|]. cbn [map]. constructor; [|apply IH; intros; apply H; right; assumption].
  destruct (H x (or_introl eq_refl)) as [Hs Hw]. split; [exact N|]. split; [eapply near_eq; [exact Hw|exact W]|eapply near_eq; [exact Hs|exact S]].
Qed.
(** Hands and fingers from left to right with the right classes, widths relative to the parent, shares of all
    presses and the asymmetry, all rounded. *)
Theorem C105_reads fm L buttons combs r w : layoutstats fm L buttons combs = Ok r -> fingerhandText r = Ok w ->
  exists l z q, read_widget w = Some (l, z, q) /\
    hand_shown fm buttons LEFT [LITTLE; RING; MIDDLE; INDEX; THUMB] l /\ hand_shown fm buttons RIGHT [THUMB; INDEX; MIDDLE; RING; LITTLE] q /\
    near 3 ((inject_Z (amount (by_hand fm LEFT) buttons) - inject_Z (amount (by_hand fm RIGHT) buttons)) / inject_Z (sumZ snd buttons))%Q z.
Proof.
  intros E F. unfold fingerhandText in F. apply bind_inv in F as (t & Ft & F). injection F as <-.
  destruct (C83_table _ _ _ _ _ _ E Ft) as (lp & ls & rp & rs & -> & Nl & Nr & (Pl & Pr & _) & Hx & _).
  destruct (C58_hands _ _ _ _ _ E) as (Ep & _ & _ & _ & _ & _ & _ & _ & As). rewrite Ep in As.
  destruct (widget_reads (ls_asymmetry r) (LEFT, lp, ls) (RIGHT, rp, rs)) as (l & z & q & R & Hl & Nz & Hr).
  exists l, z, q. split; [exact R|]. rewrite <- Nl, <- Nr. split; [|split].
  - eapply hand_ok; [exact Hl|exact Pl|]. intros x I. destruct (Hx LEFT lp ls x (or_introl eq_refl) I) as (A & B & _). auto.
  - eapply hand_ok; [exact Hr|exact Pr|]. intros x I. destruct (Hx RIGHT rp rs x (or_intror (or_introl eq_refl)) I) as (A & B & _). auto.
  - eapply near_eq; [exact As|exact Nz].
Qed.
(** Both hands fill the line exactly and their shares add up to 100; fingers fill the hand up to two thousandths
    of a percent, and their shares add up to that of the hand up to three hundredths. *)
Theorem C105_sums fm L buttons combs r w : layoutstats fm L buttons combs = Ok r -> fingerhandText r = Ok w ->
  exists lc lw lsh ls z rc rw rsh rs, read_widget w = Some ((lc, lw, lsh, ls), z, (rc, rw, rsh, rs)) /\
    (lw + rw = 100000 /\ lsh + rsh = 10000)%Z /\
    forall s l, (s, l) = (lsh, ls) \/ (s, l) = (rsh, rs) ->
      (Z.abs (total (map (fun y => snd (fst y)) l) - 100000) <= 2 /\ Z.abs (total (map snd l) - s) <= 3)%Z.
Proof.
  intros E F. unfold fingerhandText in F. apply bind_inv in F as (t & Ft & F). injection F as <-.
  destruct (C83_table _ _ _ _ _ _ E Ft) as (lp & ls & rp & rs & -> & Nl & Nr & (_ & _ & S) & _ & Ht).
  destruct (widget_reads (ls_asymmetry r) (LEFT, lp, ls) (RIGHT, rp, rs)) as ([[[lc lw] lsh] ll] & z & [[[rc rw] rsh] rl] & R & Hl & _ & Hr).
  exists lc, lw, lsh, ll, z, rc, rw, rsh, rl. split; [exact R|]. destruct Hl as (_ & Wl & Sl & Fl), Hr as (_ & Wr & Sr & Fr). cbn [fst snd] in *.
  split; [split; [exact (near_pair 3 lp rp 100 lw rw S eq_refl Wl Wr)|exact (near_pair 2 lp rp 100 lsh rsh S eq_refl Sl Sr)]|].
  assert (G : forall p fs s l, near 2 p s -> Forall2 finger_read fs l -> List.length fs = 5 -> (qtotal width fs == 100 /\ qtotal share fs == p)%Q ->
    (Z.abs (total (map (fun y => snd (fst y)) l) - 100000) <= 2 /\ Z.abs (total (map snd l) - s) <= 3)%Z).
  { clear. intros p fs s l Ns F Len [Sw Ss].
    assert (Fw : Forall2 (fun x z => near 3 (width x) z) fs (map (fun y => snd (fst y)) l)) by (clear -F; induction F as [|x y fs l (_ & W & _) F IH]; constructor; assumption).
    assert (Fs : Forall2 (fun x z => near 2 (share x) z) fs (map snd l)) by (clear -F; induction F as [|x y fs l (_ & _ & W) F IH]; constructor; assumption).
    apply near_total in Fw, Fs. rewrite Len in *. rewrite Sw in Fw. rewrite Ss in Fs. apply Qabs_Qle_condition in Fw, Fs. apply near_bounds in Ns.
    change (inject_Z (Z.of_nat 5) * (1 # 2))%Q with (5 # 2)%Q in *. change (10 ^ Z.of_nat 3)%Z with 1000%Z in *. change (10 ^ Z.of_nat 2)%Z with 100%Z in *.
    set (a := total (map (fun y => snd (fst y)) l)) in *. set (b := total (map snd l)) in *. split.
    - assert (-3 < 100000 - a < 3)%Z; [|lia]. rewrite !Zlt_Qlt. unfold Z.sub. rewrite inject_Z_plus, inject_Z_opp. change (inject_Z 1000) with (1000 # 1)%Q in *. change (inject_Z 100000) with (100000 # 1)%Q. change (inject_Z (-3)) with (-3 # 1)%Q. change (inject_Z 3) with (3 # 1)%Q. split; lra.
    - assert (-3 <= b - s <= 3)%Z; [|lia]. rewrite !Zle_Qle. unfold Z.sub. rewrite inject_Z_plus, inject_Z_opp. change (inject_Z (-3)) with (-3 # 1)%Q. change (inject_Z 3) with (3 # 1)%Q. split; lra. }
  intros s l [[= -> ->]|[= -> ->]].
  - apply (G lp ls); [exact Sl|exact Fl| |apply (Ht LEFT lp ls); left; reflexivity]. rewrite <- (map_length fname ls), Nl. reflexivity.
  - apply (G rp rs); [exact Sr|exact Fr| |apply (Ht RIGHT rp rs); right; left; reflexivity]. rewrite <- (map_length fname rs), Nr. reflexivity.
Qed.
(** There are statistics for every layout the page shows. *)
Example C105_possible d : In d DataLayouts.all_layouts -> LayoutModel.gd_name d <> "null" -> exists t s r w, typing (fun _ => false) d t = Ok s /\
  layoutstats DataFingermap.defaultFingermap (layout_new (ShippedProofs.shipped_layers d)) (StatsModel.s_buttons (StatsModel.a_simple s)) (StatsModel.s_combs (StatsModel.a_simple s)) = Ok r /\ fingerhandText r = Ok w.
Proof.
  intros I N. destruct (C83_possible d I N) as (t & s & tab & E & T). unfold table_of in T. apply bind_inv in T as (r & Er & T).
  exists t, s, r. eexists. split; [exact E|]. split; [exact Er|]. unfold fingerhandText. rewrite T. reflexivity.
Qed.
(** The bound for fingers is attained *)
Definition odd_fingers : lstats := mkLstats [(LEFT, 500000%Z); (RIGHT, 500000%Z)]
  (concat (map (fun h => [((h, LITTLE), 99998%Z); ((h, RING), 99998%Z); ((h, MIDDLE), 99998%Z); ((h, INDEX), 100003%Z); ((h, THUMB), 100003%Z)]) [LEFT; RIGHT])) 1000000 0%Q 0%Q 0%Q.
Theorem C105_sums_tight : exists w l z q, fingerhandText odd_fingers = Ok w /\ read_widget w = Some (l, z, q) /\ total (map (fun y => snd (fst y)) (snd l)) = 100002%Z.
Proof. eexists _, _, _, _. split; [vm_compute; reflexivity|]. split; [vm_compute; reflexivity|vm_compute; reflexivity]. Qed.
(** Negative numbers keep their sign, even if nothing else is left. *)
Example C105_fixed_example : fixed 3 (-1 # 8) = lit "-0.125" /\ fixed 3 (-1 # 10000) = lit "-0.000" /\ fixed 2 (1 # 8) = lit "0.12" /\ fixed 2 (199999 # 2000) = lit "100.00" /\ decimal 3 (lit "-0.125") = Some (-125)%Z.
Proof. vm_compute. repeat split. Qed.
Print Assumptions C105_reads.
Print Assumptions C105_sums.
Print Assumptions C105_sums_tight.
