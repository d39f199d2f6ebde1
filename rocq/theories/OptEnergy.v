(** Proofs about the energy (C35). *)
From Coq Require Import QArith.
From Verif Require Import Base LayoutModel LayoutProofs CarpalxModel CarpalxSpec CarpalxProofs CarpalxQ OptModel OptSpec OptProofs.
Close Scope Q_scope.
Open Scope list_scope.
Set Implicit Arguments.
Unset Strict Implicit.

(** The key a combination presses *)
Definition key_of (L : layout) (c : comb) : res key :=
  do il <- modifierToLayer L (cmod c);
  do _ <- assert_ (Nat.eqb (List.length (elems (cbtn c))) 1);
  do b <- first (elems (cbtn c));
  Ok (fst il, b).
Definition comb_at (L : layout) (t : key) : res comb :=
  do l <- of_opt IndexError (nth_error (layers L) (fst t));
  do m <- of_opt IndexError (hd_error (lmods l));
  Ok (mkComb m (frozenset [snd t])).
Lemma bind_assoc {A B C} (m : res A) (f : A -> res B) (g : B -> res C) : bind (bind m f) g = bind m (fun x => bind (f x) g).
Proof. destruct m; reflexivity. Qed.
Lemma bind_ext {A B} (m : res A) (f g : A -> res B) : (forall x, f x = g x) -> bind m f = bind m g.
Proof. destruct m; cbn; auto. Qed.
Lemma mapButton_alt L bm c : mapButton L bm c = (do k <- key_of L c; do t <- dgetM bm k; comb_at L t).
Proof.
  unfold mapButton, key_of. destruct (modifierToLayer L (cmod c)) as [il|]; [cbn [bind]|reflexivity].
  destruct (assert_ _); [cbn [bind]|reflexivity]. destruct (first _); reflexivity.
Qed.
Lemma s2t_comb_alt L i d c : s2t_comb L i d c =
  (do k <- key_of L c; Ok (dset d k (set_add (match dget d k with Some l => l | None => [] end) i))).
Proof.
  unfold s2t_comb, key_of. destruct (modifierToLayer L (cmod c)) as [il|]; [cbn [bind]|reflexivity].
  destruct (assert_ _); [cbn [bind]|reflexivity]. destruct (first _); reflexivity.
Qed.

Lemma set_add_In l i x : In x (set_add l i) <-> x = i \/ In x l.
Proof.
  unfold set_add. destruct (mem i l) eqn:E.
  - apply mem_In in E. split; [auto|]. intros [->|]; auto.
  - rewrite in_app_iff. cbn. intuition.
Qed.
Lemma set_add_NoDup l i : NoDup l -> NoDup (set_add l i).
Proof.
  unfold set_add. destruct (mem i l) eqn:E; [auto|]. apply mem_nIn in E. intros N.
  apply (Permutation_NoDup (Permutation_cons_append l i)). constructor; auto.
Qed.
Lemma dedup_fold l : forall acc x, In x (fold_left set_add l acc) <-> In x acc \/ In x l.
Proof.
  induction l as [|y l IH]; intros acc x; cbn [fold_left]; [cbn; tauto|].
  rewrite IH, set_add_In. cbn. intuition.
Qed.
Lemma dedup_In l x : In x (dedup l) <-> In x l.
Proof. unfold dedup. rewrite dedup_fold. cbn. tauto. Qed.
Lemma dedup_NoDup l : NoDup (dedup l).
Proof.
  unfold dedup. assert (H : forall acc, NoDup acc -> NoDup (fold_left set_add l acc)).
  { induction l as [|y l IH]; intros acc; cbn [fold_left]; auto using set_add_NoDup. }
  apply H. constructor.
Qed.

(** * stateToTriad *)
Definition gets (d : list (key * list nat)) (k : key) : list nat := match dget d k with Some l => l | None => [] end.
Lemma s2t_combs L i t : forall d d', foldM (s2t_comb L i) t d = Ok d' ->
  Forall (fun c => exists k, key_of L c = Ok k) t /\
  forall k x, In x (gets d' k) <-> In x (gets d k) \/ (x = i /\ exists c, In c t /\ key_of L c = Ok k).
Proof.
  induction t as [|c t IH]; intros d d'; cbn [foldM].
  { intros [= <-]. split; [constructor|]. intros k x. split; [auto|]. intros [|(_ & c & [] & _)]; auto. }
  intros E. apply bind_Ok in E as (d1 & E1 & E). rewrite s2t_comb_alt in E1.
  apply bind_Ok in E1 as (k1 & Ek & E1). injection E1 as <-.
  destruct (IH _ _ E) as [F G]. split; [constructor; eauto|].
  intros k x. rewrite G. unfold gets at 1. rewrite dget_dset.
  destruct (eqb_spec k k1) as [->|Nk].
  - rewrite set_add_In. fold (gets d k1). split.
    + intros [[->|]|(-> & c' & Hc & Ec)]; [right; split; auto; exists c; split; cbn; auto|auto|right; split; auto; exists c'; split; cbn; auto].
    + intros [|(-> & c' & [->|Hc] & Ec)]; [auto|auto|right; split; auto; eauto].
  - fold (gets d k). split.
    + intros [|(-> & c' & Hc & Ec)]; [auto|right; split; auto; exists c'; split; cbn; auto].
    + intros [|(-> & c' & [->|Hc] & Ec)]; [auto|congruence|right; split; auto; eauto].
Qed.
Lemma s2t_loop {nm} L (its : list (nat * (triad * carrier nm))) : forall d d',
  foldM (fun d it => foldM (s2t_comb L (fst it)) (fst (snd it)) d) its d = Ok d' ->
  Forall (fun it => Forall (fun c => exists k, key_of L c = Ok k) (fst (snd it))) its /\
  forall k x, In x (gets d' k) <-> In x (gets d k) \/ exists tv, In (x, tv) its /\ exists c, In c (fst tv) /\ key_of L c = Ok k.
Proof.
  induction its as [|[i tv] its IH]; intros d d'; cbn [foldM].
  { intros [= <-]. split; [constructor|]. intros k x. split; [auto|]. intros [|(tv & [] & _)]; auto. }
  intros E. apply bind_Ok in E as (d1 & E1 & E). cbn [fst snd] in E1.
  destruct (s2t_combs E1) as [F1 G1]. destruct (IH _ _ E) as [F G]. split; [constructor; auto|].
  intros k x. rewrite G, G1. split.
  - intros [[|(-> & c & Hc)]|(tv' & Hin & Hc)]; [auto|right; exists tv; split; [left; auto|eauto]|right; exists tv'; split; [right; auto|auto]].
  - intros [|(tv' & [Hin|Hin] & c & Hc)]; [auto|injection Hin as -> ->; left; right; eauto|right; eauto].
Qed.
Lemma stateToTriad_spec {nm} L (ts : list (triad * carrier nm)) d : stateToTriad L ts = Ok d ->
  (forall tv, In tv ts -> Forall (fun c => exists k, key_of L c = Ok k) (fst tv)) /\
  forall k x, In x (gets d k) <-> exists tv, nth_error ts x = Some tv /\ exists c, In c (fst tv) /\ key_of L c = Ok k.
Proof.
  unfold stateToTriad. intros E. destruct (s2t_loop E) as [F G]. split.
  - intros tv Hin. apply In_nth_error in Hin as (i & Hi). apply enumerate_nth in Hi.
    rewrite Forall_forall in F. apply (F _ Hi).
  - intros k x. rewrite G. unfold gets at 1; cbn [dget]. split.
    + intros [[]|(tv & Hin & H)]. exists tv. split; [now apply enumerate_nth|auto].
    + intros (tv & Hn & H). right. exists tv. split; [now apply enumerate_nth|auto].
Qed.

Lemma NoDup_app' {A} (l r : list A) : NoDup l -> NoDup r -> (forall x, In x l -> ~ In x r) -> NoDup (l ++ r).
Proof.
  induction l as [|x l IH]; cbn; intros Nl Nr Hd; [assumption|]. inversion Nl as [|? ? Hx Nl']; subst.
  constructor; [rewrite in_app_iff; intros [|]; [contradiction|eapply Hd; eauto]|]. apply IH; auto.
Qed.
Lemma Qsub_unit (x : Q) : (x == x - 0)%Q.
Proof. ring. Qed.
Lemma Qadd_unit (x : Q) : (x == x + 0)%Q.
Proof. ring. Qed.
(** * Sums over triads *)
Section Energy.
  Variable o : optimizer Qnum.
  Notation n_triads := (List.length (o_triads o)).
  Definition amount (i : nat) : Q := match nth_error (o_triads o) i with Some tv => snd tv | None => 0%Q end.
  Definition image (bm : bmap) (i : nat) : triad :=
    match nth_error (o_triads o) i with
    | Some tv => match mapTriad o bm (fst tv) with Ok t => t | Raise _ => [] end
    | None => []
    end.
  Definition part (m : model Qnum) (bm : bmap) (i : nat) : Q := (amount i * cost scoreQ m (image bm i))%Q.
  (** The triad can be mapped and scored *)
  Definition fine (m : model Qnum) (bm : bmap) (i : nat) : Prop :=
    exists tv t e, nth_error (o_triads o) i = Some tv /\ mapTriad o bm (fst tv) = Ok t /\ triadCompute m t = Ok e.

  Lemma racc_Ok f t n (c c' : robj Qnum) : robj_do (racc f t n c) = Ok c' ->
    exists e, triadCompute (rmodel c) t = Ok e /\ c' = mkR (rmodel c) (f (rabs c) (nmul n e)) (f (rcount c) n).
  Proof. unfold racc. destruct (triadCompute (rmodel c) t) as [e|e]; cbn; [intros [= <-]; eauto|discriminate]. Qed.
  Lemma fine_part m bm i tv t e : nth_error (o_triads o) i = Some tv -> mapTriad o bm (fst tv) = Ok t ->
    triadCompute m t = Ok e -> part m bm i = (snd tv * e)%Q /\ amount i = snd tv.
  Proof.
    intros H1 H2 H3. unfold part, amount, image. rewrite H1, H2. split; [|reflexivity].
    unfold cost, scoreQ. rewrite H3. reflexivity.
  Qed.

  Lemma shift_sub bm is : forall c c', shift o (@nsub Qnum) bm is c = Ok c' ->
    rmodel c' = rmodel c /\ Forall (fine (rmodel c) bm) is /\
    (rabs c' == rabs c - qsum (part (rmodel c) bm) is)%Q /\ (rcount c' == rcount c - qsum amount is)%Q.
  Proof.
    induction is as [|i is IH]; intros c c'; cbn [shift foldM].
    { intros [= <-]. cbn [qsum]. split; [reflexivity|]. split; [constructor|]. split; apply Qsub_unit. }
    intros E. apply bind_Ok in E as (c1 & E1 & E). apply bind_Ok in E1 as (tv & Et & E1).
    apply of_opt_Ok in Et. apply bind_Ok in E1 as (t & Em & E1).
    apply racc_Ok in E1 as (e & Ee & ->).
    destruct (fine_part Et Em Ee) as [P A].
    destruct (IH _ _ E) as (M & F & Ha & Hc). cbn [rmodel rabs rcount] in *.
    split; [assumption|]. split; [constructor; [exists tv, t, e; auto|assumption]|].
    cbn [qsum]. split.
    - rewrite Ha, P. change (nsub (n:=Qnum)) with Qminus. change (nmul (n:=Qnum)) with Qmult. ring.
    - rewrite Hc, A. change (nsub (n:=Qnum)) with Qminus. ring.
  Qed.
  Lemma shift_add bm is : forall c c', shift o (@nadd Qnum) bm is c = Ok c' ->
    rmodel c' = rmodel c /\ Forall (fine (rmodel c) bm) is /\
    (rabs c' == rabs c + qsum (part (rmodel c) bm) is)%Q /\ (rcount c' == rcount c + qsum amount is)%Q.
  Proof.
    induction is as [|i is IH]; intros c c'; cbn [shift foldM].
    { intros [= <-]. cbn [qsum]. split; [reflexivity|]. split; [constructor|]. split; apply Qadd_unit. }
    intros E. apply bind_Ok in E as (c1 & E1 & E). apply bind_Ok in E1 as (tv & Et & E1).
    apply of_opt_Ok in Et. apply bind_Ok in E1 as (t & Em & E1).
    apply racc_Ok in E1 as (e & Ee & ->).
    destruct (fine_part Et Em Ee) as [P A].
    destruct (IH _ _ E) as (M & F & Ha & Hc). cbn [rmodel rabs rcount] in *.
    split; [assumption|]. split; [constructor; [exists tv, t, e; auto|assumption]|].
    cbn [qsum]. split.
    - rewrite Ha, P. change (nadd (n:=Qnum)) with Qplus. change (nmul (n:=Qnum)) with Qmult. ring.
    - rewrite Hc, A. change (nadd (n:=Qnum)) with Qplus. ring.
  Qed.
  Lemma shift_total (f : Q -> Q -> Q) bm is : forall c : robj Qnum, Forall (fine (rmodel c) bm) is ->
    exists c', shift o (f : Qnum -> Qnum -> Qnum) bm is c = Ok c' /\ rmodel c' = rmodel c.
  Proof.
    induction is as [|i is IH]; intros c F; cbn [shift foldM]; [eauto|].
    inversion F as [|? ? (tv & t & e & H1 & H2 & H3) F']; subst. rewrite H1. cbn [of_opt bind]. rewrite H2. cbn [bind].
    unfold racc at 1. rewrite H3. cbn [robj_do bind].
    destruct (IH (mkR (rmodel c) (f (rabs c) (nmul (snd tv) e)) (f (rcount c) (snd tv)))) as (c' & E & M); [exact F'|].
    exists c'. split; [exact E|exact M].
  Qed.

  (** The accumulated sums are right for the map. *)
  Definition in_step (c : robj Qnum) (bm : bmap) : Prop :=
    (forall i, i < n_triads -> fine (rmodel c) bm i) /\
    (rabs c == qsum (part (rmodel c) bm) (seq 0 n_triads))%Q /\
    (rcount c == qsum amount (seq 0 n_triads))%Q.

  Lemma qsum_split (g g' : nat -> Q) all aff : NoDup all -> NoDup aff -> incl aff all ->
    (forall i, In i all -> ~ In i aff -> g' i = g i) ->
    (qsum g all - qsum g aff + qsum g' aff == qsum g' all)%Q.
  Proof.
    intros Na Nf Hi Hg.
    assert (P : Permutation all (aff ++ filter (fun i => negb (mem i aff)) all)).
    { apply NoDup_Permutation; [assumption| |].
      - apply NoDup_app'; [assumption|now apply NoDup_filter|].
        intros x Hx Hf. apply filter_In in Hf as [_ Hn]. apply negb_true_iff, mem_nIn in Hn. contradiction.
      - intros x. rewrite in_app_iff, filter_In, negb_true_iff, mem_nIn. split; [|intros [|[]]; auto].
        intros Hx. destruct (mem x aff) eqn:E; [left; now apply mem_In|right; split; [auto|now apply mem_nIn]]. }
    rewrite (qsum_perm g _ _ P), (qsum_perm g' _ _ P), !qsum_app.
    rewrite (qsum_ext g' g (filter (fun i => negb (mem i aff)) all)).
    - ring.
    - intros x Hf. apply filter_In in Hf as [Ha Hn]. apply negb_true_iff, mem_nIn in Hn. rewrite Hg; auto. reflexivity.
  Qed.

  Hypothesis Hs2t : stateToTriad (o_layout o) (o_triads o) = Ok (o_s2t o).

  (** Triads that press neither key are mapped as before. *)
  Lemma unaffected bm bm' a b i : swap bm a b = Ok bm' -> ~ In i (triads_of o a) -> ~ In i (triads_of o b) ->
    image bm' i = image bm i /\ (forall m, fine m bm i -> fine m bm' i).
  Proof.
    intros E Na Nb.
    assert (M : forall tv, nth_error (o_triads o) i = Some tv -> mapTriad o bm' (fst tv) = mapTriad o bm (fst tv)).
    { intros tv Et. destruct (stateToTriad_spec Hs2t) as [Hk Hi].
      unfold mapTriad.
      assert (Hc : forall c, In c (fst tv) -> mapButton (o_layout o) bm' c = mapButton (o_layout o) bm c).
      { intros c Hc. rewrite !mapButton_alt.
        destruct (key_of (o_layout o) c) as [k|] eqn:Ek; [cbn [bind]|reflexivity].
        assert (k <> a) by (intros ->; apply Na; apply Hi; eauto).
        assert (k <> b) by (intros ->; apply Nb; apply Hi; eauto).
        unfold dgetM. rewrite (swap_get E). destruct (eqb_spec k a); [contradiction|]. destruct (eqb_spec k b); [contradiction|]. reflexivity. }
      clear - Hc. induction (fst tv) as [|c t IH]; cbn; [reflexivity|].
      rewrite Hc by (cbn; auto). rewrite IH by (intros; apply Hc; cbn; auto). reflexivity. }
    split.
    - unfold image. destruct (nth_error (o_triads o) i) as [tv|] eqn:Et; [|reflexivity]. rewrite M; auto.
    - intros m (tv & t & e & H1 & H2 & H3). exists tv, t, e. rewrite M; auto.
  Qed.
  Lemma triads_of_lt k i : In i (triads_of o k) -> i < n_triads.
  Proof.
    intros Hi. destruct (stateToTriad_spec Hs2t) as [_ H]. apply H in Hi as (tv & Et & _).
    apply nth_error_Some. congruence.
  Qed.

  Variable rnd : nat -> nat.
  Variable ord : list nat -> list nat.
  Hypothesis Hord : forall l, Permutation (ord l) l.
  Variable fuel : nat.
  Notation affected a b := (ord (dedup (triads_of o a ++ triads_of o b))).
  Lemma affected_spec a b : NoDup (affected a b) /\ forall i, In i (affected a b) <-> In i (triads_of o a) \/ In i (triads_of o b).
  Proof.
    split.
    - apply (Permutation_NoDup (Permutation_sym (Hord _))), dedup_NoDup.
    - intros i. rewrite <- in_app_iff, <- (dedup_In (triads_of o a ++ triads_of o b)). split; apply Permutation_in; [|apply Permutation_sym]; apply Hord.
  Qed.
  Theorem mutate_in_step c bm p c' bm' d p' : in_step c bm ->
    mutate o rnd ord fuel c bm p = Ok (c', bm', d, p') ->
    in_step c' bm' /\ rmodel c' = rmodel c /\ (d == reffort c' - reffort c)%Q.
  Proof.
    intros (F & Ha & Hc) E. destruct (mutate_Ok E) as (a & b & Ed & Es & c1 & E1 & E2 & ->).
    destruct (shift_sub E1) as (M1 & F1 & A1 & C1). destruct (shift_add E2) as (M2 & F2 & A2 & C2).
    rewrite M1 in *. split; [|split; [congruence|reflexivity]].
    destruct (affected_spec a b) as [Nd Hin].
    unfold in_step. rewrite M2.
    assert (Hout : forall i, ~ In i (affected a b) -> ~ In i (triads_of o a) /\ ~ In i (triads_of o b)).
    { intros i Hi. rewrite Hin in Hi. tauto. }
    assert (Hincl : incl (affected a b) (seq 0 n_triads)).
    { intros i Hi. apply in_seq. apply Hin in Hi. destruct Hi as [Hi|Hi]; apply triads_of_lt in Hi; lia. }
    split; [|split].
    - intros i Hi. destruct (mem i (affected a b)) eqn:Em.
      + apply mem_In in Em. rewrite Forall_forall in F2. auto.
      + apply mem_nIn in Em. destruct (Hout i Em). eapply unaffected; eauto.
    - rewrite A2, A1, Ha. apply qsum_split; auto using seq_NoDup.
      intros i _ Hi. destruct (Hout i Hi) as [Oa Ob]. unfold part.
      destruct (unaffected Es Oa Ob) as [-> _]. reflexivity.
    - rewrite C2, C1, Hc. ring.
  Qed.
  (** mutate never raises if all triads can be scored before and after. *)
  Theorem mutate_no_raise c bm p a b p' : in_step c bm -> draw o rnd fuel bm p = Ok (a, b, p') ->
    (forall bm', swap bm a b = Ok bm' -> forall i, i < n_triads -> fine (rmodel c) bm' i) ->
    exists c' bm' d, mutate o rnd ord fuel c bm p = Ok (c', bm', d, p').
  Proof.
    intros (F & _) Ed Hf. unfold mutate. rewrite Ed. cbn [bind].
    destruct (affected_spec a b) as [Nd Hin].
    assert (Hlt : forall i, In i (affected a b) -> i < n_triads).
    { intros i Hi. apply Hin in Hi. destruct Hi as [Hi|Hi]; now apply triads_of_lt in Hi. }
    destruct (@shift_total Qminus bm (affected a b) c) as (c1 & E1 & M1).
    { apply Forall_forall. auto. }
    change (shift o nsub bm (affected a b) c = Ok c1) in E1. rewrite E1. cbn [bind].
    destruct (draw_Ok Ed) as ((_ & _ & _ & ta & tb & Ga & Gb & _) & _).
    destruct (swap bm a b) as [bm'|] eqn:Es.
    2:{ unfold swap, dgetM in Es. rewrite Ga, Gb in Es. discriminate. }
    cbn [bind].
    destruct (@shift_total Qplus bm' (affected a b) c1) as (c2 & E2 & M2).
    { apply Forall_forall. rewrite M1. eauto. }
    change (shift o nadd bm' (affected a b) c1 = Ok c2) in E2. rewrite E2. cbn [bind]. eauto.
  Qed.
End Energy.

(** * _resetEnergy *)
Lemma nth_error_map_seq {A} (l : list A) d : map (fun i => nth i l d) (seq 0 (List.length l)) = l.
Proof.
  induction l as [|x l IH]; [reflexivity|]. cbn [List.length seq map nth]. f_equal.
  rewrite <- seq_shift, map_map. exact IH.
Qed.
Section Reset.
  Variable o : optimizer Qnum.
  (** Sum over a list of triads *)
  Definition tpart (m : model Qnum) (bm : bmap) (tv : triad * Q) : Q :=
    (snd tv * cost scoreQ m (match mapTriad o bm (fst tv) with Ok t => t | Raise _ => [] end))%Q.
  Definition tfine (m : model Qnum) (bm : bmap) (tv : triad * Q) : Prop :=
    exists t e, mapTriad o bm (fst tv) = Ok t /\ triadCompute m t = Ok e.
  Definition readd (bm : bmap) (ts : list (triad * Q)) (c : robj Qnum) : res (robj Qnum) :=
    foldM (fun (c : robj Qnum) (tv : triad * Q) => do t' <- mapTriad o bm (fst tv); robj_do (racc (nm:=Qnum) nadd t' (snd tv) c)) ts c.
  Lemma readd_Ok bm ts : forall c c', readd bm ts c = Ok c' ->
    rmodel c' = rmodel c /\ Forall (tfine (rmodel c) bm) ts /\
    (rabs c' == rabs c + qsum (tpart (rmodel c) bm) ts)%Q /\ (rcount c' == rcount c + qsum snd ts)%Q.
  Proof.
    induction ts as [|tv ts IH]; intros c c'; cbn [readd foldM].
    { intros [= <-]. cbn [qsum]. split; [reflexivity|]. split; [constructor|]. split; apply Qadd_unit. }
    intros E. apply bind_Ok in E as (c1 & E1 & E). apply bind_Ok in E1 as (t & Em & E1).
    apply racc_Ok in E1 as (e & Ee & ->).
    destruct (IH _ _ E) as (M & F & Ha & Hc). cbn [rmodel rabs rcount] in *.
    split; [assumption|]. split; [constructor; [exists t, e; auto|assumption]|].
    cbn [qsum]. split.
    - rewrite Ha. assert (Ht : tpart (rmodel c) bm tv = (snd tv * e)%Q) by (unfold tpart, cost, scoreQ; rewrite Em, Ee; reflexivity).
      rewrite Ht.
      change (nadd (n:=Qnum)) with Qplus. change (nmul (n:=Qnum)) with Qmult. ring.
    - rewrite Hc. change (nadd (n:=Qnum)) with Qplus. ring.
  Qed.
  Lemma readd_total bm ts : forall c, Forall (tfine (rmodel c) bm) ts -> exists c', readd bm ts c = Ok c'.
  Proof.
    induction ts as [|tv ts IH]; intros c F; cbn [readd foldM]; [eauto|].
    inversion F as [|? ? (t & e & H1 & H2) F']; subst. rewrite H1. cbn [bind].
    unfold racc at 1. rewrite H2. cbn [robj_do bind].
    match goal with |- context [foldM _ ts ?c1] => apply (IH c1) end. exact F'.
  Qed.
  Lemma qsum_seq {A} (f : A -> Q) (g : nat -> Q) (l : list A) : (forall i x, nth_error l i = Some x -> g i = f x) ->
    qsum g (seq 0 (List.length l)) = qsum f l.
  Proof.
    intros H. revert g H. induction l as [|x l IH]; intros g H; [reflexivity|].
    cbn [List.length seq qsum]. rewrite (H 0 x eq_refl). f_equal.
    rewrite <- seq_shift, qsum_map. apply IH. intros i y Hi. apply (H (S i)). exact Hi.
  Qed.
  Lemma in_step_alt c bm : in_step o c bm <->
    Forall (tfine (rmodel c) bm) (o_triads o) /\
    (rabs c == qsum (tpart (rmodel c) bm) (o_triads o))%Q /\ (rcount c == qsum snd (o_triads o))%Q.
  Proof.
    unfold in_step.
    assert (E1 : qsum (part o (rmodel c) bm) (seq 0 (List.length (o_triads o))) = qsum (tpart (rmodel c) bm) (o_triads o)).
    { apply (@qsum_seq _ (tpart (rmodel c) bm) (part o (rmodel c) bm) (o_triads o)).
      intros i x Hi. unfold part, tpart, amount, image.
      change (nth_error (o_triads o) i = Some x) in Hi. rewrite Hi. reflexivity. }
    assert (E2 : qsum (amount o) (seq 0 (List.length (o_triads o))) = qsum snd (o_triads o)).
    { apply (@qsum_seq _ (snd : triad * Q -> Q) (amount o) (o_triads o)).
      intros i x Hi. unfold amount. change (nth_error (o_triads o) i = Some x) in Hi. rewrite Hi. reflexivity. }
    rewrite E1, E2.
    assert (Hf : (forall i, i < List.length (o_triads o) -> fine o (rmodel c) bm i) <-> Forall (tfine (rmodel c) bm) (o_triads o)).
    { rewrite Forall_forall. split.
      - intros H tv Hin. apply In_nth_error in Hin as (i & Hi).
        destruct (H i) as (tv' & t & e & H1 & H2 & H3); [apply nth_error_Some; intros N; change (@nth_error (triad * Q) (o_triads o) i = None) in N; congruence|].
        change (@nth_error (triad * Q) (o_triads o) i = Some tv') in H1.
        assert (tv' = tv) as -> by congruence. exists t, e; auto.
      - intros H i Hi. apply nth_error_Some in Hi. destruct (nth_error (o_triads o) i) as [tv|] eqn:Et; [|congruence].
        destruct (H tv) as (t & e & H2 & H3); [eapply nth_error_In; eauto|]. exists tv, t, e; auto. }
    rewrite Hf. reflexivity.
  Qed.
  Theorem reset_in_step c bm c' : resetEnergy o c bm = Ok c' -> in_step o c' bm /\ rmodel c' = rmodel c.
  Proof.
    intros E. change (readd bm (o_triads o) (mkR (rmodel c) 0%Q 0%Q) = Ok c') in E.
    destruct (readd_Ok E) as (M & F & Ha & Hc). cbn [rmodel rabs rcount] in *.
    split; [|assumption]. apply in_step_alt. rewrite M. split; [assumption|].
    rewrite Ha, Hc. split; ring.
  Qed.
  Theorem reset_total c bm : Forall (tfine (rmodel c) bm) (o_triads o) -> exists c', resetEnergy o c bm = Ok c'.
  Proof. intros F. apply (readd_total (c:=mkR (rmodel c) 0%Q 0%Q)). exact F. Qed.

  (** The effort is that of the moved triads. *)
  Theorem in_step_costs c bm : in_step o c bm -> costs (o_layout o) (o_triads o) (rmodel c) bm (reffort c).
  Proof.
    intros I. apply in_step_alt in I as (F & Ha & Hc).
    set (g := fun tv : triad * Q => (match mapTriad o bm (fst tv) with Ok t => t | Raise _ => [] end, snd tv)).
    exists (map g (o_triads o)). split; [|split].
    - clear Ha Hc. induction F as [|tv ts (t & e & H1 & H2) F IH]; cbn [map]; constructor; [|exact IH].
      unfold moved, g. cbn [fst snd]. rewrite H1. split; [|reflexivity]. apply mapM_Ok_inv. exact H1.
    - apply Forall_map. eapply Forall_impl; [|exact F]. intros tv (t & e & H1 & H2). unfold g; cbn [fst].
      rewrite H1. unfold scoreQ. rewrite H2. discriminate.
    - unfold reffort. apply (@mean_alt (rmodel c)).
      + rewrite Hc. unfold weight. rewrite qsum_map. reflexivity.
      + rewrite Ha. unfold total. rewrite qsum_map. reflexivity.
  Qed.
  Lemma moved_fun bm l l' : Forall2 (moved (o_layout o) bm) (o_triads o) l -> Forall2 (moved (o_layout o) bm) (o_triads o) l' -> l = l'.
  Proof.
    intros H. revert l'. induction H as [|tv x ts l [H1 H2] H IH]; intros l' H'; inversion H' as [|? y ? l'' [G1 G2] G]; subst; [reflexivity|].
    f_equal; [|auto]. destruct x as [xt xn], y as [yt yn]; cbn [fst snd] in *. f_equal; [|congruence].
    apply mapM_Ok in H1. apply mapM_Ok in G1. congruence.
  Qed.
  Lemma costs_fun m bm e e' : costs (o_layout o) (o_triads o) m bm e -> costs (o_layout o) (o_triads o) m bm e' -> (e == e')%Q.
  Proof.
    intros (l & H1 & _ & H2) (l' & H1' & _ & H2'). rewrite H2, H2', (moved_fun H1 H1'). reflexivity.
  Qed.
End Reset.
