(** Exact arithmetic: the books (C28) and the triad formula (C31). *)
From Coq Require Import QArith Lqa Lia Setoid Morphisms.
From Verif Require Import Base LayoutModel CarpalxModel CarpalxSpec CarpalxProofs.
Close Scope Q_scope.
Open Scope string_scope.
Open Scope list_scope.

Lemma qsum_app {A} (f : A -> Q) l r : (qsum f (l ++ r) == qsum f l + qsum f r)%Q.
Proof. induction l as [|x l IH]; cbn; [ring|]. rewrite IH. ring. Qed.
Lemma qsum_perm {A} (f : A -> Q) l r : Permutation l r -> (qsum f l == qsum f r)%Q.
Proof.
  induction 1 as [|x l r P IH|x y l|l r s P1 IH1 P2 IH2]; cbn; [reflexivity|rewrite IH; reflexivity|ring|].
  rewrite IH1. exact IH2.
Qed.
Lemma qsum_map {A B} (f : B -> Q) (g : A -> B) l : qsum f (map g l) = qsum (fun x => f (g x)) l.
Proof. induction l as [|x l IH]; cbn; congruence. Qed.
Lemma qsum_ext {A} (f g : A -> Q) l : (forall x, In x l -> f x == g x)%Q -> (qsum f l == qsum g l)%Q.
Proof.
  induction l as [|x l IH]; cbn; intros E; [reflexivity|]. rewrite (E x) by auto. rewrite IH by auto. reflexivity.
Qed.
Lemma qsum_nonneg {A} (f : A -> Q) l : (forall x, In x l -> 0 <= f x)%Q -> (0 <= qsum f l)%Q.
Proof.
  induction l as [|x l IH]; cbn; intros P; [apply Qle_refl|].
  assert (0 <= f x)%Q by auto. assert (0 <= qsum f l)%Q by auto. lra.
Qed.
Lemma qsum_le {A} (f g : A -> Q) l : (forall x, In x l -> f x <= g x)%Q -> (qsum f l <= qsum g l)%Q.
Proof.
  induction l as [|x l IH]; cbn; intros P; [apply Qle_refl|].
  assert (f x <= g x)%Q by auto. assert (qsum f l <= qsum g l)%Q by auto. lra.
Qed.
Lemma qsum_mulc {A} (f : A -> Q) c l : (qsum (fun x => c * f x) l == c * qsum f l)%Q.
Proof. induction l as [|x l IH]; cbn; [ring|]. rewrite IH. ring. Qed.

Definition books (o : robj Qnum) (lo : lobj) : Prop :=
  rmodel o = fst lo /\ (rcount o == weight (snd lo))%Q /\ (rabs o == total scoreQ (fst lo) (snd lo))%Q.

Lemma weight_snoc l t n : (weight (l ++ [(t, n)]) == weight l + n)%Q.
Proof. unfold weight. rewrite qsum_app. cbn. ring. Qed.
Lemma total_snoc m l t n : (total scoreQ m (l ++ [(t, n)]) == total scoreQ m l + n * cost scoreQ m t)%Q.
Proof. unfold total. rewrite qsum_app. cbn. ring. Qed.
Lemma cost_ok m t e : triadCompute m t = Ok e -> cost scoreQ m t = e.
Proof. unfold cost, scoreQ. now intros ->. Qed.

Lemma racc_add o lo t n : books o lo ->
  books (fst (racc nadd t n o)) (fst lo, enter scoreQ (fst lo) (snd lo) t n).
Proof.
  intros (A & B & C). destruct lo as [m l]; cbn [fst snd] in *. unfold racc, enter, scoreQ. rewrite A.
  destruct (triadCompute m t) as [e|e] eqn:E; [|repeat split; auto].
  repeat split; cbn [fst snd rmodel rcount rabs]; auto.
  - rewrite weight_snoc, <- B. reflexivity.
  - rewrite total_snoc, (cost_ok _ _ _ E), <- C. reflexivity.
Qed.
Lemma racc_rem o lo t n : books o lo ->
  books (fst (racc nsub t n o)) (fst lo, enter scoreQ (fst lo) (snd lo) t (- n)%Q).
Proof.
  intros (A & B & C). destruct lo as [m l]; cbn [fst snd] in *. unfold racc, enter, scoreQ. rewrite A.
  destruct (triadCompute m t) as [e|e] eqn:E; [|repeat split; auto].
  repeat split; cbn [fst snd rmodel rcount rabs]; auto.
  - rewrite weight_snoc, <- B. reflexivity.
  - rewrite total_snoc, (cost_ok _ _ _ E), <- C. cbn [nsub Qnum nmul]. unfold Qminus. ring.
Qed.
Lemma racc_many_books ts : forall o lo, books o lo ->
  books (fst (racc_many ts o)) (fst lo, enter_many scoreQ (fst lo) (snd lo) ts).
Proof.
  induction ts as [|[t n] ts IH]; intros o [m l] K; cbn [racc_many enter_many fst snd]; [exact K|].
  pose proof (racc_add o (m, l) t n K) as K1. cbn [fst snd] in K1.
  destruct (racc nadd t n o) as [o1 r] eqn:R. cbn [fst] in K1.
  assert (Em : rmodel o = m) by apply K.
  unfold racc in R. rewrite Em in R. unfold enter in K1.
  assert (Es : scoreQ m t = match triadCompute m t with Ok e => Some e | Raise _ => None end) by reflexivity.
  destruct (triadCompute m t) as [e|e]; rewrite Es in *; inversion R; subst o1 r.
  - apply (IH _ (m, l ++ [(t, n)])). exact K1.
  - cbn [fst]. exact K.
Qed.

Lemma Forall2_upd {A B} (P : A -> B -> Prop) l r i x y :
  Forall2 P l r -> P x y -> Forall2 P (upd l i x) (upd r i y).
Proof. intros F. revert i. induction F; intros [|i] Q; cbn; constructor; auto. Qed.
Lemma Forall2_nth_error {A B} (P : A -> B -> Prop) l r i :
  Forall2 P l r ->
  match nth_error l i, nth_error r i with
  | Some x, Some y => P x y | None, None => True | _, _ => False end.
Proof. intros F. revert i. induction F; intros [|i]; cbn; auto. apply IHF. Qed.

Lemma rupd_books w lw i f g : Forall2 books w lw ->
  (forall o lo, books o lo -> books (fst (f o)) (fst lo, g (fst lo) (snd lo))) ->
  Forall2 books (fst (rupd w i f)) (lon lw i g).
Proof.
  intros F S. unfold rupd, lon. pose proof (@Forall2_nth_error _ _ _ _ _ i F) as N.
  destruct (nth_error w i) as [o|], (nth_error lw i) as [[m l]|]; try tauto.
  specialize (S _ _ N). destruct (f o) as [o' r]. cbn [fst snd] in *. apply Forall2_upd; auto.
Qed.
Lemma upd_oob {A} (l : list A) i x : nth_error l i = None -> upd l i x = l.
Proof. revert i; induction l as [|y l IH]; intros [|i] E; cbn in *; try discriminate; f_equal; auto. Qed.
Lemma lon_id w i f : (forall m l, f m l = l) -> lon w i f = w.
Proof.
  intros E. unfold lon. destruct (nth_error w i) as [[m l]|] eqn:N; [|reflexivity].
  rewrite E. apply upd_same; auto.
Qed.
Lemma rstep_books w lw o : Forall2 books w lw -> Forall2 books (fst (rstep w o)) (lstep lw o).
Proof.
  intros F. destruct o as [m|i t n|i t n|i ts|i|i]; cbn [rstep lstep].
  - destruct (initCheck m); cbn; [|auto]. apply Forall2_app; [auto|]. constructor; [|constructor].
    repeat split; cbn; reflexivity.
  - apply rupd_books; auto. intros; apply racc_add; auto.
  - apply rupd_books; auto. intros; apply racc_rem; auto.
  - destruct ts as [|tn ts].
    + cbn [fst]. rewrite lon_id by reflexivity. exact F.
    + apply rupd_books; auto. intros; apply racc_many_books; auto.
  - apply rupd_books; auto. intros ? lo [A _]. repeat split; cbn; try reflexivity. exact A.
  - pose proof (@Forall2_nth_error _ _ _ _ _ i F) as N.
    destruct (nth_error w i) as [o|], (nth_error lw i) as [[m l]|]; try tauto.
    pose proof N as [A _]. cbn [fst] in A. rewrite A. destruct (initCheck m); cbn; [|exact F].
    apply Forall2_app; [auto|]. constructor; [exact N|constructor].
Qed.
Lemma rrun_books os : forall w lw, Forall2 books w lw -> Forall2 books (fst (rrun w os)) (lrun lw os).
Proof.
  induction os as [|o os IH]; intros w lw F; cbn [rrun lrun fold_left]; [exact F|].
  pose proof (rstep_books w lw o F) as S. destruct (rstep w o) as [w1 r]. cbn [fst] in S.
  specialize (IH w1 (lstep lw o) S). destruct (rrun w1 os) as [w2 rs]. exact IH.
Qed.
Lemma crun_books os :
  Forall2 (fun o lo => books (strip o) lo) (insts (fst (crun (@cempty Qnum) os))) (lrun [] os).
Proof.
  pose proof (@crun_sim Qnum os cempty cempty_ok) as S. destruct (crun cempty os) as [w rs].
  destruct S as [_ S]. cbn [fst].
  pose proof (rrun_books os [] [] (Forall2_nil _)) as B. cbn [cempty insts map] in S. rewrite S in B. cbn [fst] in B.
  revert B. generalize (lrun [] os) (insts w). clear. intros lw l. revert lw.
  induction l as [|o l IH]; intros lw F; cbn in F; inversion F; subst; constructor; auto.
Qed.

Lemma mean_alt m l c a : (c == weight l)%Q -> (a == total scoreQ m l)%Q ->
  ((if nis0 (n:=Qnum) c then nofZ (n:=Qnum) 0 else ndiv (n:=Qnum) a c) == mean scoreQ m l)%Q.
Proof.
  intros Ec Ea. unfold mean. cbn [nis0 Qnum nofZ ndiv].
  destruct (Qeq_dec (weight l) 0) as [Z|Z].
  - rewrite (proj2 (Qeq_bool_iff c 0)); [reflexivity|]. rewrite Ec. exact Z.
  - destruct (Qeq_bool c 0) eqn:G; [apply Qeq_bool_iff in G; rewrite Ec in G; contradiction|].
    rewrite Ec, Ea. reflexivity.
Qed.
Lemma effort_mean o lo : books (strip o) lo -> (effort o == mean scoreQ (fst lo) (snd lo))%Q.
Proof. intros (A & B & C). unfold effort. apply mean_alt; [exact B|exact C]. Qed.

Lemma mean_perm m l r : Permutation l r -> (mean scoreQ m l == mean scoreQ m r)%Q.
Proof.
  intros P. unfold mean.
  assert (W : (weight l == weight r)%Q) by (apply qsum_perm; auto).
  assert (S : (total scoreQ m l == total scoreQ m r)%Q) by (apply qsum_perm; auto).
  destruct (Qeq_dec (weight l) 0) as [Z|Z], (Qeq_dec (weight r) 0) as [Z'|Z'].
  - reflexivity.
  - exfalso; apply Z'. rewrite <- W. exact Z.
  - exfalso; apply Z. rewrite W. exact Z'.
  - rewrite W, S. reflexivity.
Qed.
Definition negate (l : ledger) : ledger := map (fun e => (fst e, (- snd e)%Q)) l.
Lemma mean_cancel m l k r : Permutation (negate k) r -> (mean scoreQ m (l ++ k ++ r) == mean scoreQ m l)%Q.
Proof.
  intros P.
  assert (W : (weight (l ++ k ++ r) == weight l)%Q).
  { unfold weight. rewrite !qsum_app, <- (qsum_perm snd _ _ P). unfold negate. rewrite qsum_map. cbn [snd].
    assert (E : (qsum (fun x : triad * Q => - snd x) k == - qsum snd k)%Q)
      by (clear; induction k as [|x k IH]; cbn; [reflexivity|rewrite IH; ring]).
    rewrite E. ring. }
  assert (S : (total scoreQ m (l ++ k ++ r) == total scoreQ m l)%Q).
  { unfold total. rewrite !qsum_app, <- (qsum_perm _ _ _ P). unfold negate. rewrite qsum_map. cbn [fst snd].
    assert (E : (qsum (fun x : triad * Q => - snd x * cost scoreQ m (fst x)) k
                 == - qsum (fun x => snd x * cost scoreQ m (fst x)) k)%Q)
      by (clear; induction k as [|x k IH]; cbn; [reflexivity|rewrite IH; ring]).
    rewrite E. ring. }
  unfold mean. destruct (Qeq_dec (weight (l ++ k ++ r)) 0) as [Z|Z], (Qeq_dec (weight l) 0) as [Z'|Z'].
  - reflexivity.
  - exfalso; apply Z'. rewrite <- W. exact Z.
  - exfalso; apply Z. rewrite W. exact Z'.
  - rewrite W, S. reflexivity.
Qed.
Lemma mean_bounds m l lo hi :
  (forall t n, In (t, n) l -> 0 <= n /\ lo <= cost scoreQ m t <= hi)%Q -> ~ (weight l == 0)%Q ->
  (lo <= mean scoreQ m l <= hi)%Q.
Proof.
  intros A Z. unfold mean. destruct (Qeq_dec (weight l) 0) as [|_]; [contradiction|].
  assert (W : (0 <= weight l)%Q).
  { apply qsum_nonneg. intros [t n] I. apply (A _ _ I). }
  assert (P : (0 < weight l)%Q) by (apply Qle_lteq in W; destruct W as [|E]; [auto|symmetry in E; contradiction]).
  assert (L : (lo * weight l <= total scoreQ m l)%Q).
  { unfold weight, total. rewrite <- qsum_mulc. apply qsum_le. intros [t n] I. destruct (A _ _ I) as (N & Lo & _).
    cbn [fst snd]. rewrite (Qmult_comm n). apply Qmult_le_compat_r; auto. }
  assert (H : (total scoreQ m l <= hi * weight l)%Q).
  { unfold weight, total. rewrite <- qsum_mulc. apply qsum_le. intros [t n] I. destruct (A _ _ I) as (N & _ & Hi).
    cbn [fst snd]. rewrite (Qmult_comm n). apply Qmult_le_compat_r; auto. }
  split; [apply Qle_shift_div_l|apply Qle_shift_div_r]; auto.
Qed.

(** * C31 *)
Lemma nsum_qsum (l : list Q) : (nsum_py (nm:=Qnum) l == qsum (fun x => x) l)%Q.
Proof.
  unfold nsum_py. cbn [Qnum nofZ nadd]. change (inject_Z 0) with 0%Q.
  assert (G : forall a, (fold_left Qplus l a == a + qsum (fun x => x) l)%Q).
  { induction l as [|x l IH]; intros a; cbn; [ring|]. rewrite IH. ring. }
  rewrite G. ring.
Qed.
Lemma min_py_Q (l : list Q) s : min_py (nm:=Qnum) l = Ok s -> In s l /\ forall x, In x l -> (s <= x)%Q.
Proof.
  destruct l as [|x l]; cbn [min_py]; [discriminate|]. intros E. injection E as <-.
  cbn [nltb Qnum]. revert x. induction l as [|y l IH]; intros x; cbn [fold_left].
  - split; [left; reflexivity|]. intros z [->|[]]. apply Qle_refl.
  - destruct (IH (if negb (Qle_bool x y) then y else x)) as [I M].
    set (s := fold_left _ _ _) in *.
    destruct (Qle_bool x y) eqn:B; cbn [negb] in *.
    + apply Qle_bool_iff in B. split; [destruct I as [<-|I]; cbn; auto|].
      intros z [->|[->|I']]; [apply M; left; auto| |apply M; right; auto].
      apply Qle_trans with x; [apply M; left; auto|exact B].
    + assert (B' : (y <= x)%Q).
      { destruct (Qlt_le_dec x y) as [L|L]; [|exact L].
        assert (Qle_bool x y = true) by (apply Qle_bool_iff, Qlt_le_weak; exact L). congruence. }
      split; [destruct I as [<-|I]; cbn; auto|].
      intros z [->|[->|I']]; [|apply M; left; auto|apply M; right; auto].
      apply Qle_trans with y; [apply M; left; auto|exact B'].
Qed.
Lemma min_py_nonempty (l : list Q) : l <> [] -> exists s, min_py (nm:=Qnum) l = Ok s.
Proof. destruct l; [congruence|]. cbn. eauto. Qed.

Lemma product_3 {A} (l0 l1 l2 : list A) t :
  In t (product [l0; l1; l2]) <-> exists x y z, t = [x; y; z] /\ In x l0 /\ In y l1 /\ In z l2.
Proof.
  cbn [product]. rewrite in_flat_map. split.
  - intros (x & Hx & I). apply in_map_iff in I. destruct I as (t1 & <- & I).
    apply in_flat_map in I. destruct I as (y & Hy & I). apply in_map_iff in I. destruct I as (t2 & <- & I).
    apply in_flat_map in I. destruct I as (z & Hz & I). cbn in I. destruct I as [<-|[]]. eauto 10.
  - intros (x & y & z & -> & Hx & Hy & Hz). exists x; split; [auto|]. apply in_map.
    apply in_flat_map. exists y; split; [auto|]. apply in_map.
    apply in_flat_map. exists z; split; [auto|]. cbn; auto.
Qed.

Section Formula.
  Variable m : model Qnum.
  Hypothesis It : iterates m.
  Let p := mparams m.

  Lemma miter_in c b : In b (miter m c) <-> pressed c b.
  Proof.
    unfold pressed. rewrite <- in_app_iff. split; apply Permutation_in; [|apply Permutation_sym]; apply It.
  Qed.
  Lemma miter_len c : List.length (miter m c) = comb_len c.
  Proof. unfold comb_len. rewrite (Permutation_length (It c)), app_length. reflexivity. Qed.

  Definition bval (b : string) : Q := match baselineOf m b with Ok x => x | Raise _ => 0%Q end.
  Definition pval (b : string) : Q := match penalty m b with Ok x => x | Raise _ => 0%Q end.

  Lemma penalty_known b f : knows m b f -> exists q, penalty m b = Ok q /\ (q == pen m f)%Q.
  Proof.
    intros (A & B & C & D & E & pf & F & G). unfold penalty, handFinger, getRow, dgetM.
    rewrite B, C. cbn [of_opt bind fst snd]. fold p. unfold p.
    rewrite D; cbn [of_opt bind]. rewrite E; cbn [of_opt bind]. rewrite F; cbn [of_opt bind]. rewrite G; cbn [of_opt bind].
    eexists; split; [reflexivity|]. unfold madd, pen. cbn [madd_from nadd nmul nofZ Qnum].
    change (inject_Z 0) with 0%Q. change (inject_Z 1) with 1%Q. ring.
  Qed.
  Lemma baseline_known b f : knows m b f -> baselineOf m b = Ok (bf_base f).
  Proof. intros (A & _). unfold baselineOf, dgetM. rewrite A. reflexivity. Qed.
  Lemma known_if b q r : baselineOf m b = Ok q -> penalty m b = Ok r -> known m b.
  Proof.
    unfold baselineOf, penalty, handFinger, getRow, dgetM, known, knows.
    destruct (dget (baseline (mparams m)) b) as [x|] eqn:A; [|discriminate].
    destruct (dget (mfm m) b) as [[h g]|] eqn:B; [|discriminate]. cbn [of_opt bind fst snd].
    destruct (dget (mrows m) b) as [row|] eqn:C; [|discriminate]. cbn [of_opt bind].
    destruct (dget (pHand (mparams m)) h) as [ph|] eqn:D; [|discriminate]. cbn [of_opt bind].
    destruct (nth_error (pRow (mparams m)) row) as [pr|] eqn:E; [|discriminate]. cbn [of_opt bind].
    destruct (dget (pFinger (mparams m)) h) as [pf|] eqn:F; [|discriminate]. cbn [of_opt bind].
    destruct (dget pf g) as [pg|] eqn:G; [|discriminate]. intros _ _.
    exists (mkBF x h g row ph pr pg). cbn. repeat split; auto. exists pf; auto.
  Qed.
  Lemma bval_known b f : knows m b f -> (bval b == bf_base f)%Q /\ (pval b == pen m f)%Q.
  Proof.
    intros K. unfold bval, pval. rewrite (baseline_known _ _ K).
    destruct (penalty_known _ _ K) as (q & -> & E). split; [reflexivity|exact E].
  Qed.

  Lemma comb_cost_ok f v c : (forall b, pressed c b -> f b = Ok (v b)) ->
    exists q, combEffort m f c = Ok q /\ (q == comb_cost m v c)%Q.
  Proof.
    intros A. unfold combEffort. rewrite (mapM_total f v).
    2: { intros x I. apply A, miter_in, I. }
    cbn [bind]. eexists; split; [reflexivity|]. rewrite map_length, miter_len.
    cbn [nadd nmul nofZ Qnum]. rewrite nsum_qsum, qsum_map, (qsum_perm v _ _ (It c)), qsum_app.
    unfold comb_cost. reflexivity.
  Qed.
  Lemma base_ok f v c0 c1 c2 : (forall c b, In c [c0; c1; c2] -> pressed c b -> f b = Ok (v b)) ->
    exists q, baseEffort m [c0; c1; c2] f = Ok q /\
      (q == nest m (comb_cost m v c0) (comb_cost m v c1) (comb_cost m v c2))%Q.
  Proof.
    intros A. unfold baseEffort. cbn [mapM].
    destruct (comb_cost_ok f v c0) as (q0 & F0 & E0); [intros b Pb; apply (A c0); cbn; auto|].
    destruct (comb_cost_ok f v c1) as (q1 & F1 & E1); [intros b Pb; apply (A c1); cbn; auto|].
    destruct (comb_cost_ok f v c2) as (q2 & F2 & E2); [intros b Pb; apply (A c2); cbn; auto|].
    rewrite F0; cbn [bind]; rewrite F1; cbn [bind]; rewrite F2; cbn [bind].
    eexists; split; [reflexivity|]. cbn [nadd nmul nofZ Qnum]. change (inject_Z 1) with 1%Q.
    unfold nest. rewrite E0, E1, E2. reflexivity.
  Qed.

  Lemma stroke_ok x y z : known m x -> known m y -> known m z ->
    exists s, strokeEffort m [x; y; z] = Ok s /\ stroke m x y z s.
  Proof.
    intros [fx Kx] [fy Ky] [fz Kz].
    destruct (finger_pos_ex (bf_hand fx, bf_finger fx)) as [i Pi].
    destruct (finger_pos_ex (bf_hand fy, bf_finger fy)) as [j Pj].
    destruct (finger_pos_ex (bf_hand fz, bf_finger fz)) as [k Pk].
    destruct (@strokePath_ok _ m x y z (bf_hand fx, bf_finger fx) (bf_hand fy, bf_finger fy)
      (bf_hand fz, bf_finger fz) (bf_row fx) (bf_row fy) (bf_row fz) i j k) as (h & r & f & E & Hh & Hr & Hf);
      try assumption; try apply Kx; try apply Ky; try apply Kz.
    unfold strokeEffort. rewrite E. cbn [bind]. eexists; split; [reflexivity|].
    exists fx, fy, fz, i, j, k, h, r, f.
    repeat (split; [assumption|]). unfold madd. cbn [madd_from nadd nmul nofZ Qnum].
    change (inject_Z 0) with 0%Q. ring.
  Qed.
  Lemma knows_fun b f g : knows m b f -> knows m b g -> f = g.
  Proof.
    intros (A & B & C & D & E & pf & F & G) (A' & B' & C' & D' & E' & pf' & F' & G').
    destruct f, g; cbn in *. rewrite A in A'. rewrite B in B'. rewrite C in C'.
    injection A' as ->. injection B' as -> ->. injection C' as ->.
    rewrite D in D'. rewrite E in E'. rewrite F in F'. injection D' as ->. injection E' as ->. injection F' as ->.
    rewrite G in G'. injection G' as ->. reflexivity.
  Qed.
  Lemma finger_pos_fun g i j : finger_pos g i -> finger_pos g j -> i = j.
  Proof. intros A B. apply finger_pos_no in A, B. lia. Qed.
  Lemma stroke_fun x y z s s' : stroke m x y z s -> stroke m x y z s' -> (s == s')%Q.
  Proof.
    intros (fx & fy & fz & i & j & k & h & r & f & K1 & K2 & K3 & H1 & H2 & P1 & P2 & P3 & H3 & E)
           (fx' & fy' & fz' & i' & j' & k' & h' & r' & f' & K1' & K2' & K3' & H1' & H2' & P1' & P2' & P3' & H3' & E').
    pose proof (knows_fun _ _ _ K1 K1'). pose proof (knows_fun _ _ _ K2 K2'). pose proof (knows_fun _ _ _ K3 K3'). subst fx' fy' fz'.
    pose proof (finger_pos_fun _ _ _ P1 P1'). pose proof (finger_pos_fun _ _ _ P2 P2'). pose proof (finger_pos_fun _ _ _ P3 P3').
    subst i' j' k'.
    rewrite (hand_path_fun _ _ _ _ _ H1 H1') in E. rewrite (row_path_fun _ _ _ _ _ H2 H2') in E.
    rewrite (finger_path_fun _ _ _ _ _ _ _ _ H3 H3') in E. rewrite E, E'. reflexivity.
  Qed.

  Definition scorable (c0 c1 c2 : comb) : Prop :=
    forall c, In c [c0; c1; c2] -> (exists b, pressed c b) /\ forall b, pressed c b -> known m b.

  Lemma triadCompute_ok c0 c1 c2 : scorable c0 c1 c2 ->
    exists e, triadCompute m [c0; c1; c2] = Ok e /\ triad_formula m c0 c1 c2 e.
  Proof.
    intros K. unfold triadCompute.
    assert (Kb : forall c b, In c [c0; c1; c2] -> pressed c b -> baselineOf m b = Ok (bval b)).
    { intros c b I P. destruct (K c I) as [_ K']. destruct (K' b P) as [f Kf]. unfold bval.
      rewrite (baseline_known _ _ Kf). reflexivity. }
    assert (Kp : forall c b, In c [c0; c1; c2] -> pressed c b -> penalty m b = Ok (pval b)).
    { intros c b I P. destruct (K c I) as [_ K']. destruct (K' b P) as [f Kf]. unfold pval.
      destruct (penalty_known _ _ Kf) as (q & -> & _). reflexivity. }
    destruct (base_ok _ _ _ _ _ Kb) as (eb & -> & Eb). destruct (base_ok _ _ _ _ _ Kp) as (ep & -> & Ep).
    cbn [bind map].
    set (sv := fun t => match strokeEffort m t with Ok s => s | Raise _ => 0%Q end).
    assert (Ks : forall x y z, pressed c0 x -> pressed c1 y -> pressed c2 z ->
      strokeEffort m [x; y; z] = Ok (sv [x; y; z]) /\ stroke m x y z (sv [x; y; z])).
    { intros x y z P0 P1 P2. destruct (stroke_ok x y z) as (s & E & S).
      - apply (K c0); cbn; auto.
      - apply (K c1); cbn; auto.
      - apply (K c2); cbn; auto.
      - unfold sv. rewrite E. auto. }
    rewrite (mapM_total (strokeEffort m) sv).
    2: { intros t I. apply product_3 in I. destruct I as (x & y & z & -> & I0 & I1 & I2).
         apply Ks; apply miter_in; auto. }
    cbn [bind].
    destruct (min_py_nonempty (map sv (product [miter m c0; miter m c1; miter m c2]))) as [s Es].
    { destruct (K c0) as [[x Px] _]; [cbn; auto|]. destruct (K c1) as [[y Py] _]; [cbn; auto|].
      destruct (K c2) as [[z Pz] _]; [cbn; auto|].
      assert (I : In [x; y; z] (product [miter m c0; miter m c1; miter m c2]))
        by (apply product_3; exists x, y, z; rewrite !miter_in; auto).
      intros E. apply (in_map sv) in I. rewrite E in I. destruct I. }
    rewrite Es. cbn [bind]. eexists; split; [reflexivity|].
    destruct (min_py_Q _ _ Es) as [I M].
    exists bval, pval, s. split; [apply bval_known|]. split.
    - split.
      + apply in_map_iff in I. destruct I as (t & <- & I). apply product_3 in I.
        destruct I as (x & y & z & -> & I0 & I1 & I2). rewrite miter_in in I0, I1, I2.
        exists x, y, z. split; [auto|]. split; [auto|]. split; [auto|]. apply Ks; auto.
      + intros x y z s' P0 P1 P2 S.
        destruct (Ks x y z P0 P1 P2) as [_ S0]. rewrite <- (stroke_fun _ _ _ _ _ S0 S).
        apply M, in_map, product_3. exists x, y, z. rewrite !miter_in. auto.
    - unfold madd. cbn [madd_from nadd nmul nofZ Qnum]. change (inject_Z 0) with 0%Q.
      rewrite Eb, Ep. ring.
  Qed.

  Lemma base_inv f t q : baseEffort m t f = Ok q -> forall c b, In c t -> pressed c b -> exists v, f b = Ok v.
  Proof.
    unfold baseEffort. destruct (mapM (combEffort m f) t) as [bs|] eqn:E; [|discriminate]. intros _ c b I P.
    apply mapM_Ok_inv in E. revert I. induction E as [|c' v t bs Ec _ IH]; intros I; [destruct I|].
    destruct I as [->|I]; [|auto]. unfold combEffort in Ec.
    destruct (mapM f (miter m c)) as [l|] eqn:El; [|discriminate]. apply mapM_Ok_inv in El.
    apply miter_in in P. clear -El P. induction El; [destruct P|]. destruct P as [<-|P]; eauto.
  Qed.
  Lemma triadCompute_inv c0 c1 c2 e : triadCompute m [c0; c1; c2] = Ok e -> scorable c0 c1 c2.
  Proof.
    unfold triadCompute. destruct (baseEffort m [c0; c1; c2] (baselineOf m)) as [eb|] eqn:Eb; [|discriminate].
    cbn [bind]. destruct (baseEffort m [c0; c1; c2] (penalty m)) as [ep|] eqn:Ep; [|discriminate].
    cbn [bind map]. intros E c I. split.
    - destruct (miter m c) as [|b l] eqn:Em.
      + exfalso.
        assert (N : product [miter m c0; miter m c1; miter m c2] = []).
        { destruct (product [miter m c0; miter m c1; miter m c2]) as [|t ts] eqn:Ep'; [reflexivity|].
          assert (It' : In t (product [miter m c0; miter m c1; miter m c2])) by (rewrite Ep'; left; auto).
          apply product_3 in It'. destruct It' as (x & y & z & _ & I0 & I1 & I2).
          destruct I as [<-|[<-|[<-|[]]]]; [rewrite Em in I0; destruct I0|rewrite Em in I1; destruct I1|rewrite Em in I2; destruct I2]. }
        rewrite N in E. cbn in E. discriminate.
      + exists b. apply miter_in. rewrite Em. left; auto.
    - intros b P. destruct (base_inv _ _ _ Eb c b I P) as [v Ev]. destruct (base_inv _ _ _ Ep c b I P) as [r Er].
      eapply known_if; eauto.
  Qed.

  Lemma comb_cost_ext v w c : (forall b, pressed c b -> v b == w b)%Q -> (comb_cost m v c == comb_cost m w c)%Q.
  Proof.
    intros E. unfold comb_cost. rewrite (qsum_ext v w (elems (cmod c))), (qsum_ext v w (elems (cbtn c))); [reflexivity| |];
      intros x I; apply E; unfold pressed; auto.
  Qed.
  Lemma triad_formula_fun c0 c1 c2 e e' : scorable c0 c1 c2 ->
    triad_formula m c0 c1 c2 e -> triad_formula m c0 c1 c2 e' -> (e == e')%Q.
  Proof.
    intros K (bv & pv & s & V & (Sx & Sm) & E) (bv' & pv' & s' & V' & (Sx' & Sm') & E').
    assert (Ev : forall c, In c [c0; c1; c2] ->
      (comb_cost m bv c == comb_cost m bv' c)%Q /\ (comb_cost m pv c == comb_cost m pv' c)%Q).
    { intros c I. split; apply comb_cost_ext; intros b P; destruct (proj2 (K c I) b P) as [f Kf];
        destruct (V b f Kf) as [A B]; destruct (V' b f Kf) as [A' B']; [rewrite A, A'|rewrite B, B']; reflexivity. }
    destruct (Ev c0) as [B0 P0]; [cbn; auto|]. destruct (Ev c1) as [B1 P1]; [cbn; auto|].
    destruct (Ev c2) as [B2 P2]; [cbn; auto|].
    assert (Es : (s == s')%Q).
    { destruct Sx as (x & y & z & Q0 & Q1 & Q2 & S). destruct Sx' as (x' & y' & z' & Q0' & Q1' & Q2' & S').
      apply Qle_antisym; [exact (Sm x' y' z' s' Q0' Q1' Q2' S')|exact (Sm' x y z s Q0 Q1 Q2 S)]. }
    rewrite E, E'. unfold nest. rewrite B0, B1, B2, P0, P1, P2, Es. reflexivity.
  Qed.
End Formula.

(** Models without negative numbers *)
Definition params_nonneg (p : params Qnum) : Prop :=
  (forall x, In x [kB p; kP p; kS p; k1 p; k2 p; k3 p; kSim p; w0 p; wH p; wR p; wF p; fH p; fR p; fF p] -> 0 <= x)%Q /\
  (forall x, In x (dvals (pHand p)) -> 0 <= x)%Q /\ (forall x, In x (pRow p) -> 0 <= x)%Q /\
  (forall h f x, In (h, f) (pFinger p) -> In x (dvals f) -> 0 <= x)%Q /\
  (forall x, In x (dvals (baseline p)) -> 0 <= x)%Q.

Lemma dget_vals {K V} `{EqDec K} (d : list (K * V)) k v : dget d k = Some v -> In v (dvals d).
Proof.
  induction d as [|[k' v'] d IH]; cbn; [discriminate|].
  destruct (eqb k k'); [intros E; injection E as ->; auto|auto].
Qed.
Lemma dget_In {K V} `{EqDec K} (d : list (K * V)) k v : dget d k = Some v -> In (k, v) d.
Proof.
  induction d as [|[k' v'] d IH]; cbn; [discriminate|].
  destruct (eqb_spec k k') as [->|]; [intros E; injection E as ->; auto|auto].
Qed.

Lemma triad_nonneg m c0 c1 c2 e : iterates m -> params_nonneg (mparams m) ->
  triadCompute m [c0; c1; c2] = Ok e -> (0 <= e)%Q.
Proof.
  intros It (N & Nh & Nr & Nf & Nb) E. pose proof (triadCompute_inv m It _ _ _ _ E) as K.
  destruct (triadCompute_ok m It _ _ _ K) as (e' & E' & (bv & pv & s & V & (Sx & _) & F)).
  rewrite E in E'. injection E' as <-. rewrite F.
  assert (C : forall c, In c [c0; c1; c2] -> (0 <= comb_cost m bv c)%Q /\ (0 <= comb_cost m pv c)%Q).
  { intros c I. destruct (K c I) as [[b P] Kn].
    assert (L : (0 <= inject_Z (Z.of_nat (comb_len c) - 1) * kSim (mparams m))%Q).
    { apply Qmult_le_0_compat; [|apply N; cbn; tauto].
      unfold comb_len. change 0%Q with (inject_Z 0). rewrite <- Zle_Qle.
      destruct P as [P|P]; [destruct (elems (cmod c))|destruct (elems (cbtn c))]; try (destruct P); cbn [List.length]; lia. }
    assert (Vn : forall x, pressed c x -> (0 <= bv x)%Q /\ (0 <= pv x)%Q).
    { intros x Px. destruct (Kn x Px) as [f Kf]. destruct (V x f Kf) as [A B].
      rewrite A, B. destruct Kf as (F1 & F2 & F3 & F4 & F5 & pf & F6 & F7). split.
      - apply Nb. eapply dget_vals; eauto.
      - unfold pen.
        assert (0 <= bf_phand f)%Q by (apply Nh; eapply dget_vals; eauto).
        assert (0 <= bf_prow f)%Q by (apply Nr; eapply nth_error_In; eauto).
        assert (0 <= bf_pfinger f)%Q by (eapply Nf; [eapply dget_In; eauto|eapply dget_vals; eauto]).
        assert (0 <= w0 (mparams m))%Q by (apply N; cbn; tauto).
        assert (0 <= wH (mparams m) * bf_phand f)%Q by (apply Qmult_le_0_compat; auto; apply N; cbn; tauto).
        assert (0 <= wR (mparams m) * bf_prow f)%Q by (apply Qmult_le_0_compat; auto; apply N; cbn; tauto).
        assert (0 <= wF (mparams m) * bf_pfinger f)%Q by (apply Qmult_le_0_compat; auto; apply N; cbn; tauto).
        lra. }
    unfold comb_cost. split.
    - assert (0 <= qsum bv (elems (cmod c)))%Q by (apply qsum_nonneg; intros; apply Vn; left; auto).
      assert (0 <= qsum bv (elems (cbtn c)))%Q by (apply qsum_nonneg; intros; apply Vn; right; auto). lra.
    - assert (0 <= qsum pv (elems (cmod c)))%Q by (apply qsum_nonneg; intros; apply Vn; left; auto).
      assert (0 <= qsum pv (elems (cbtn c)))%Q by (apply qsum_nonneg; intros; apply Vn; right; auto). lra. }
  destruct (C c0) as [B0 P0]; [cbn; auto|]. destruct (C c1) as [B1 P1]; [cbn; auto|].
  destruct (C c2) as [B2 P2]; [cbn; auto|].
  assert (Hs : (0 <= s)%Q).
  { destruct Sx as (x & y & z & _ & _ & _ & (fx & fy & fz & i & j & k & h & r & f & _ & _ & _ & H1 & H2 & _ & _ & _ & H3 & Es)).
    rewrite Es. apply hand_path_range in H1. apply row_path_range in H2. apply finger_path_range in H3.
    assert (G : forall q v, In q [fH (mparams m); fR (mparams m); fF (mparams m)] -> (0 <= v)%Z -> (0 <= q * inject_Z v)%Q).
    { intros q v I Hv. apply Qmult_le_0_compat; [apply N; cbn in *; tauto|]. change 0%Q with (inject_Z 0). rewrite <- Zle_Qle. auto. }
    assert (A1 := G (fH (mparams m)) h ltac:(cbn; auto) ltac:(lia)).
    assert (A2 := G (fR (mparams m)) r ltac:(cbn; auto) ltac:(lia)).
    assert (A3 := G (fF (mparams m)) f ltac:(cbn; auto) ltac:(lia)). lra. }
  assert (Ne : forall a b c, (0 <= a -> 0 <= b -> 0 <= c -> 0 <= nest m a b c)%Q).
  { intros a b c Ha Hb Hc. unfold nest.
    assert (G1 : (0 <= k3 (mparams m) * c)%Q) by (apply Qmult_le_0_compat; auto; apply N; cbn; tauto).
    assert (G2 : (0 <= k2 (mparams m) * b)%Q) by (apply Qmult_le_0_compat; auto; apply N; cbn; tauto).
    assert (G3 : (0 <= k1 (mparams m) * a)%Q) by (apply Qmult_le_0_compat; auto; apply N; cbn; tauto).
    apply Qmult_le_0_compat; auto.
    assert (G4 : (0 <= k2 (mparams m) * b * (1 + k3 (mparams m) * c))%Q) by (apply Qmult_le_0_compat; auto; lra).
    lra. }
  assert (A1 : (0 <= kB (mparams m) * nest m (comb_cost m bv c0) (comb_cost m bv c1) (comb_cost m bv c2))%Q)
    by (apply Qmult_le_0_compat; [apply N; cbn; tauto|auto]).
  assert (A2 : (0 <= kP (mparams m) * nest m (comb_cost m pv c0) (comb_cost m pv c1) (comb_cost m pv c2))%Q)
    by (apply Qmult_le_0_compat; [apply N; cbn; tauto|auto]).
  assert (A3 : (0 <= kS (mparams m) * s)%Q) by (apply Qmult_le_0_compat; [apply N; cbn; tauto|auto]).
  lra.
Qed.
