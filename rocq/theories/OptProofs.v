(** Proofs about the annealer and the button map (C33, C34, C36, C37). *)
From Coq Require Import QArith.
From Verif Require Import Base LayoutModel LayoutProofs CarpalxModel CarpalxSpec CarpalxProofs OptModel OptSpec.
Close Scope Q_scope.
Open Scope list_scope.
Set Implicit Arguments.
Unset Strict Implicit.

Lemma bind_Ok {A B} (m : res A) (f : A -> res B) b : bind m f = Ok b -> exists a, m = Ok a /\ f a = Ok b.
Proof. destruct m; cbn; [eauto|discriminate]. Qed.
Lemma dgetM_Ok {K V} `{EqDec K} (d : list (K * V)) k v : dgetM d k = Ok v <-> dget d k = Some v.
Proof. unfold dgetM. destruct (dget d k); cbn; split; congruence. Qed.
Lemma of_opt_Ok {A} e (o : option A) a : of_opt e o = Ok a <-> o = Some a.
Proof. destruct o; cbn; split; congruence. Qed.
Lemma assert_Ok b u : assert_ b = Ok u <-> b = true.
Proof. destruct b, u; cbn; split; congruence. Qed.

Lemma nth_error_upd' {A} (l : list A) i j x : nth_error (upd l i x) j =
  if Nat.eqb j i then (match nth_error l i with Some _ => Some x | None => None end) else nth_error l j.
Proof.
  revert i j; induction l as [|y l IH]; intros [|i] [|j]; cbn; auto.
  all: try (destruct (Nat.eqb j i); reflexivity).
Qed.

(** * The annealer *)
Section Annealer.
  Context {nm : num}.
  Notation T := (carrier nm).
  Context {C M : Type}.
  Variable mutate : C -> M -> nat -> res (C * M * T * nat).
  Variable thr : nat -> T.
  Notation astate := (astate (nm:=nm) (C:=C) (M:=M)).
  Notation heap := (heap (C:=C) (M:=M)).

  Lemma decide_spec i d dm : fst (decide thr i d dm) = true <-> accepts thr i d (nmax_py (nabs d) dm).
  Proof. unfold decide, accepts, below; cbn [fst]. rewrite orb_true_iff. reflexivity. Qed.

  (** Both parts of a reference are strictly below the allocation pointers. *)
  Definition valid (h : heap) (r : ref) : Prop := exists c m, holds h r c m.
  Definition apart (r r' : ref) : Prop := fst r <> fst r' /\ snd r <> snd r'.

  Lemma hcopy_ok h r c m : holds h r c m ->
    exists h' r', hcopy h r = Ok (h', r') /\ holds h' r' c m /\ apart r r' /\
      (forall s d q, holds h s d q -> holds h' s d q) /\
      (forall s, valid h s -> apart s r').
  Proof.
    intros [Hc Hm]. unfold hcopy. rewrite Hc, Hm.
    eexists _, _. split; [reflexivity|]. cbn. unfold holds; cbn.
    pose proof (proj1 (nth_error_Some (hc h) (fst r)) ltac:(congruence)).
    pose proof (proj1 (nth_error_Some (hm h) (snd r)) ltac:(congruence)).
    split; [|split; [|split]].
    - split; rewrite nth_error_app2, Nat.sub_diag by lia; reflexivity.
    - split; cbn; lia.
    - intros s d q [A B].
      pose proof (proj1 (nth_error_Some (hc h) (fst s)) ltac:(congruence)).
      pose proof (proj1 (nth_error_Some (hm h) (snd s)) ltac:(congruence)).
      rewrite !nth_error_app1 by lia. auto.
    - intros s (d & q & A & B).
      pose proof (proj1 (nth_error_Some (hc h) (fst s)) ltac:(congruence)).
      pose proof (proj1 (nth_error_Some (hm h) (snd s)) ltac:(congruence)).
      split; cbn; lia.
  Qed.
  Lemma hmutate_ok h r c m p c' m' d p' : holds h r c m -> mutate c m p = Ok (c', m', d, p') ->
    exists h', hmutate mutate h r p = Ok (h', d, p') /\ holds h' r c' m' /\
      (forall s x y, apart r s -> holds h s x y -> holds h' s x y) /\
      (forall s, valid h s -> valid h' s).
  Proof.
    intros [Hc Hm] E. unfold hmutate. rewrite Hc, Hm, E. cbn.
    eexists. split; [reflexivity|]. unfold holds; cbn.
    split; [|split].
    - rewrite !nth_error_upd', !Nat.eqb_refl, Hc, Hm. auto.
    - intros s x y [Na Nb] [A B]. rewrite !nth_error_upd'.
      destruct (Nat.eqb_spec (fst s) (fst r)); [congruence|].
      destruct (Nat.eqb_spec (snd s) (snd r)); [congruence|]. auto.
    - intros s (x & y & A & B). unfold valid, holds; cbn.
      rewrite !nth_error_upd', A, B, Hc, Hm.
      destruct (Nat.eqb (fst s) (fst r)), (Nat.eqb (snd s) (snd r)); eauto.
  Qed.
  Lemma hmutate_raise h r c m p e : holds h r c m -> mutate c m p = Raise e -> hmutate mutate h r p = Raise e.
  Proof. intros [Hc Hm] E. unfold hmutate. rewrite Hc, Hm, E. reflexivity. Qed.

  (** The invariant: current state and best state are separate objects. *)
  Record ainv (s : astate) (c : C) (m : M) (bc : C) (bm : M) : Prop := {
    ai_cur : holds (a_heap s) (a_state s) c m;
    ai_best : holds (a_heap s) (fst (a_best s)) bc bm;
    ai_apart : apart (a_state s) (fst (a_best s)) }.

  Hypothesis Hlt : strict nm.

  Notation state := (C * M * T)%type.
  (** Best among the states seen so far *)
  Definition is_best (seen : list state) (b : state) : Prop :=
    In b seen /\ forall x, In x seen -> ~ below (snd x) (snd b).

  Lemma step_accept i s c m bc bm c' m' d p' seen : ainv s c m bc bm ->
    is_best seen (bc, bm, snd (a_best s)) ->
    mutate c m (a_pos s) = Ok (c', m', d, p') -> accepts thr i d (nmax_py (nabs d) (a_dmax s)) ->
    exists s' bc' bm', anneal_step mutate thr i s = Ok s' /\ ainv s' c' m' bc' bm' /\
      a_energy s' = nadd (a_energy s) d /\ a_dmax s' = nmax_py (nabs d) (a_dmax s) /\ a_pos s' = p' /\
      is_best (seen ++ [(c', m', nadd (a_energy s) d)]) (bc', bm', snd (a_best s')).
  Proof.
    intros [Hc Hb Ha] [Bin Bmin] E A. unfold anneal_step.
    destruct (hcopy_ok Hc) as (h1 & r1 & -> & H1 & Ap1 & K1 & F1). cbn [bind].
    destruct (hmutate_ok (K1 _ _ _ Hc) E) as (h2 & -> & H2 & K2 & V2). cbn [bind].
    apply decide_spec in A. unfold decide in A; cbn [fst] in A. unfold decide. rewrite A.
    destruct (nltb (nadd (a_energy s) d) (snd (a_best s))) eqn:Lt.
    - destruct (hcopy_ok H2) as (h3 & r3 & -> & H3 & Ap3 & K3 & F3). cbn [bind fst snd].
      eexists _, c', m'. split; [reflexivity|]. cbn.
      split; [constructor; cbn; auto|]. repeat (split; [reflexivity|]).
      split; [apply in_or_app; right; left; reflexivity|].
      intros x Hx Hlow. apply in_app_or in Hx. destruct Hx as [Hx|[<-|[]]].
      + apply (Bmin x Hx). cbn [snd] in *. destruct Hlt as [_ Tr]. eapply Tr; eauto.
      + destruct Hlt as [Ir _]. unfold below in Hlow. cbn in Hlow. rewrite Ir in Hlow. discriminate.
    - eexists _, bc, bm. split; [reflexivity|]. cbn.
      split; [constructor; cbn; auto|]. repeat (split; [reflexivity|]).
      split; [apply in_or_app; auto|].
      intros x Hx. apply in_app_or in Hx. destruct Hx as [Hx|[<-|[]]]; [auto|].
      unfold below; cbn. congruence.
  Qed.
  Lemma step_reject i s c m bc bm c' m' d p' seen : ainv s c m bc bm ->
    is_best seen (bc, bm, snd (a_best s)) ->
    mutate c m (a_pos s) = Ok (c', m', d, p') -> ~ accepts thr i d (nmax_py (nabs d) (a_dmax s)) ->
    exists s', anneal_step mutate thr i s = Ok s' /\ ainv s' c m bc bm /\
      a_energy s' = a_energy s /\ a_dmax s' = nmax_py (nabs d) (a_dmax s) /\ a_pos s' = p' /\
      is_best seen (bc, bm, snd (a_best s')).
  Proof.
    intros [Hc Hb Ha] Hbest E A. unfold anneal_step.
    destruct (hcopy_ok Hc) as (h1 & r1 & -> & H1 & Ap1 & K1 & F1). cbn [bind].
    destruct (hmutate_ok (K1 _ _ _ Hc) E) as (h2 & -> & H2 & K2 & V2). cbn [bind].
    rewrite <- decide_spec in A. unfold decide in A; cbn [fst] in A. unfold decide.
    destruct (_ || _); [congruence|].
    eexists. split; [reflexivity|]. cbn. split; [|auto].
    constructor; cbn; auto.
    assert (Q : apart (fst (a_best s)) r1) by (apply F1; unfold valid; eauto).
    destruct Q as [q1 q2]. split; congruence.
  Qed.
  Lemma step_raise i s c m bc bm e : ainv s c m bc bm ->
    mutate c m (a_pos s) = Raise e -> anneal_step mutate thr i s = Raise e.
  Proof.
    intros [Hc Hb Ha] E. unfold anneal_step.
    destruct (hcopy_ok Hc) as (h1 & r1 & -> & H1 & Ap1 & K1 & F1). cbn [bind].
    rewrite (hmutate_raise (K1 _ _ _ Hc) E). reflexivity.
  Qed.
  Lemma accepts_dec i d dm : {accepts thr i d (nmax_py (nabs d) dm)} + {~ accepts thr i d (nmax_py (nabs d) dm)}.
  Proof. destruct (fst (decide thr i d dm)) eqn:E; [left|right]; rewrite <- decide_spec; congruence. Qed.

  (** The loop is a walk. *)
  Lemma loop_walk n : forall i s c m bc bm seen s', ainv s c m bc bm ->
    is_best seen (bc, bm, snd (a_best s)) ->
    anneal_loop mutate thr n i s = Ok s' ->
    exists hist c' m' bc' bm', walk mutate thr i n (c, m, a_energy s) (a_dmax s) (a_pos s) hist (c', m', a_energy s') /\
      ainv s' c' m' bc' bm' /\ is_best (seen ++ hist) (bc', bm', snd (a_best s')).
  Proof.
    induction n as [|n IH]; intros i s c m bc bm seen s' I B; cbn [anneal_loop].
    - intros [= <-]. exists [], c, m, bc, bm. rewrite app_nil_r. repeat split; try apply I; try apply B. constructor.
    - destruct (mutate c m (a_pos s)) as [[[[c1 m1] d] p1]|e] eqn:E.
      2:{ rewrite (step_raise i I E). discriminate. }
      destruct (accepts_dec i d (a_dmax s)) as [A|A].
      + destruct (step_accept I B E A) as (s1 & bc1 & bm1 & -> & I1 & En & Dm & P & B1). cbn [bind]. intros L.
        destruct (IH _ _ _ _ _ _ _ _ I1 B1 L) as (hist & c2 & m2 & bc2 & bm2 & W & I2 & B2).
        exists ((c1, m1, nadd (a_energy s) d) :: hist), c2, m2, bc2, bm2.
        rewrite <- app_assoc in B2. split; [|auto].
        rewrite En, Dm, P in W. eapply walk_accept; eauto.
      + destruct (step_reject I B E A) as (s1 & -> & I1 & En & Dm & P & B1). cbn [bind]. intros L.
        destruct (IH _ _ _ _ _ _ _ _ I1 B1 L) as (hist & c2 & m2 & bc2 & bm2 & W & I2 & B2).
        exists hist, c2, m2, bc2, bm2. split; [|auto].
        rewrite En, Dm, P in W. eapply walk_reject; eauto.
  Qed.
  Lemma walk_loop n : forall i s c m bc bm seen hist fin, ainv s c m bc bm ->
    is_best seen (bc, bm, snd (a_best s)) ->
    walk mutate thr i n (c, m, a_energy s) (a_dmax s) (a_pos s) hist fin ->
    exists s', anneal_loop mutate thr n i s = Ok s'.
  Proof.
    induction n as [|n IH]; intros i s c m bc bm seen hist fin I B W; cbn [anneal_loop]; [eauto|].
    inversion W as [|? ? ? ? ? ? ? c1 m1 d p1 hist' ? E A W'|? ? ? ? ? ? ? c1 m1 d p1 hist' ? E A W']; subst.
    - destruct (step_accept I B E A) as (s1 & bc1 & bm1 & -> & I1 & En & Dm & P & B1). cbn [bind].
      rewrite <- En, <- Dm, <- P in W'. eapply IH; eauto.
    - destruct (step_reject I B E A) as (s1 & -> & I1 & En & Dm & P & B1). cbn [bind].
      rewrite <- En, <- Dm, <- P in W'. eapply IH; eauto.
  Qed.

  Lemma run_start h r c m p : holds h r c m ->
    exists hb, hcopy h r = Ok hb /\
      let s0 := mkA (fst hb) r (nofZ 0) (nofZ 0) (snd hb, nofZ 0) p in
      ainv s0 c m c m /\ is_best [(c, m, nofZ 0)] (c, m, snd (a_best s0)).
  Proof.
    intros H. destruct (hcopy_ok H) as (h1 & r1 & -> & H1 & Ap & K & F).
    eexists. split; [reflexivity|]. cbn. split; [constructor; cbn; auto|].
    split; [left; reflexivity|]. intros x [<-|[]] L. destruct Hlt as [Ir _].
    unfold below in L; cbn in L. rewrite Ir in L. discriminate.
  Qed.
  Theorem run_walk n h r c m p s : holds h r c m -> anneal_run mutate thr n h r p = Ok s ->
    exists hist c' m' bc bm,
      walk mutate thr 0 n (c, m, nofZ 0) (nofZ 0) p hist (c', m', a_energy s) /\
      holds (a_heap s) (a_state s) c' m' /\ holds (a_heap s) (fst (a_best s)) bc bm /\
      is_best ((c, m, nofZ 0) :: hist) (bc, bm, snd (a_best s)).
  Proof.
    intros H. unfold anneal_run. destruct (run_start p H) as (hb & -> & I & B). cbn [bind]. intros L.
    destruct (loop_walk I B L) as (hist & c' & m' & bc & bm & W & [I1 I2 I3] & B').
    exists hist, c', m', bc, bm. auto.
  Qed.
  Theorem walk_run n h r c m p hist fin : holds h r c m ->
    walk mutate thr 0 n (c, m, nofZ 0) (nofZ 0) p hist fin ->
    exists s, anneal_run mutate thr n h r p = Ok s.
  Proof.
    intros H W. unfold anneal_run. destruct (run_start p H) as (hb & -> & I & B). cbn [bind].
    eapply walk_loop; eauto.
  Qed.
  Lemma walk_fun i n cur dm p h1 f1 : walk mutate thr i n cur dm p h1 f1 ->
    forall h2 f2, walk mutate thr i n cur dm p h2 f2 -> h1 = h2 /\ f1 = f2.
  Proof.
    induction 1 as [|i n c m e dm p c' m' d p' hist fin E A W IH|i n c m e dm p c' m' d p' hist fin E A W IH];
      intros h2 f2 W2; inversion W2 as [|? ? ? ? ? ? ? c1 m1 d1 p1 hist' ? E1 A1 W1|? ? ? ? ? ? ? c1 m1 d1 p1 hist' ? E1 A1 W1]; subst;
      try rewrite E in E1; try (injection E1 as <- <- <- <-); auto; try contradiction.
    - destruct (IH _ _ W1) as [-> ->]. auto.
  Qed.
  (** An invariant of the mutation holds for all accepted states. *)
  Lemma walk_inv (P : C -> M -> Prop) (Hp : forall c m p c' m' d p', P c m -> mutate c m p = Ok (c', m', d, p') -> P c' m')
    i n cur dm p hist fin : walk mutate thr i n cur dm p hist fin -> P (fst (fst cur)) (snd (fst cur)) ->
    Forall (fun s => P (fst (fst s)) (snd (fst s))) hist /\ P (fst (fst fin)) (snd (fst fin)).
  Proof.
    induction 1 as [|i n c m e dm p c' m' d p' hist fin E A W IH|i n c m e dm p c' m' d p' hist fin E A W IH]; intros H0; cbn [fst snd] in *.
    - split; [constructor|assumption].
    - pose proof (Hp _ _ _ _ _ _ _ H0 E) as H1. destruct (IH H1). split; [constructor; auto|auto].
    - auto.
  Qed.
  Lemma walk_last i n cur dm p hist fin : walk mutate thr i n cur dm p hist fin -> fin = last hist cur.
  Proof.
    induction 1 as [|i n c m e dm p c' m' d p' hist fin E A W IH|i n c m e dm p c' m' d p' hist fin E A W IH]; [reflexivity| |exact IH].
    rewrite IH. destruct hist as [|y hist]; [reflexivity|]. cbn [last].
    clear. revert y. induction hist; intros y; cbn in *; auto.
  Qed.
End Annealer.

(** * Swaps *)
Section Swap.
  Context {K V : Type} `{EqDec K}.
  Lemma swap_Ok (d : list (K * V)) a b d' : swap d a b = Ok d' ->
    exists va vb, dget d a = Some va /\ dget d b = Some vb /\ d' = dset (dset d b va) a vb.
  Proof.
    unfold swap. intros E. apply bind_Ok in E as (va & Ea & E). apply bind_Ok in E as (vb & Eb & E).
    apply dgetM_Ok in Ea. apply dgetM_Ok in Eb. inversion E; subst. eauto 6.
  Qed.
  Lemma swap_get (d : list (K * V)) a b d' : swap d a b = Ok d' -> forall k,
    dget d' k = dget d (if eqb k a then b else if eqb k b then a else k).
  Proof.
    intros E k. destruct (swap_Ok E) as (va & vb & Ea & Eb & ->).
    rewrite !dget_dset. destruct (eqb k a); [auto|]. destruct (eqb k b); auto.
  Qed.
  Lemma swap_keys (d : list (K * V)) a b d' : swap d a b = Ok d' -> dkeys d' = dkeys d.
  Proof.
    intros E. destruct (swap_Ok E) as (va & vb & Ea & Eb & ->).
    rewrite !dkeys_dset. unfold dhas. rewrite dget_dset.
    destruct (eqb a b); rewrite ?Ea, Eb; reflexivity.
  Qed.
  Lemma dvals_get (d : list (K * V)) : dict_wf d -> map Some (dvals d) = map (dget d) (dkeys d).
  Proof.
    intros W. unfold dvals, dkeys. rewrite !map_map. apply map_ext_in. intros [k v] Hin. cbn.
    symmetry. apply (dget_In_iff _ _ _ W). assumption.
  Qed.
  Lemma Permutation_map_inv' {A B} (f : A -> B) (Hf : forall x y, f x = f y -> x = y) l r :
    Permutation (map f l) (map f r) -> Permutation l r.
  Proof.
    intros P. destruct (Permutation_map_inv f l (Permutation_sym P)) as (l3 & E & P3).
    assert (r = l3) as ->; [|now apply Permutation_sym].
    clear P P3. revert l3 E. induction r as [|x r IH]; intros [|y l3] E; cbn in E; try discriminate; auto.
    injection E as E1 E2. apply Hf in E1. f_equal; auto.
  Qed.
  (** The renaming of keys behind a swap is a permutation of the keys. *)
  Lemma transpose_perm (l : list K) a b : NoDup l -> In a l -> In b l ->
    Permutation (map (fun k => if eqb k a then b else if eqb k b then a else k) l) l.
  Proof.
    intros N Ha Hb.
    assert (Inv : forall k, (fun k => if eqb k a then b else if eqb k b then a else k) ((fun k => if eqb k a then b else if eqb k b then a else k) k) = k).
    { intros k. cbn. destruct (eqb_spec k a) as [->|Na].
      - destruct (eqb_spec b a) as [->|]; [auto|]. rewrite eqb_refl. reflexivity.
      - destruct (eqb_spec k b) as [->|Nb].
        + rewrite eqb_refl. reflexivity.
        + destruct (eqb_spec k a); [contradiction|]. destruct (eqb_spec k b); [contradiction|]. reflexivity. }
    apply NoDup_Permutation; [|assumption|].
    - apply FinFun.Injective_map_NoDup; [|assumption]. intros x y E. rewrite <- (Inv x), <- (Inv y). cbn in *. rewrite E. reflexivity.
    - intros k. rewrite in_map_iff. split.
      + intros (x & <- & Hx). destruct (eqb x a); [assumption|]. destruct (eqb x b); assumption.
      + intros Hk. exists (if eqb k a then b else if eqb k b then a else k). split; [apply Inv|].
        destruct (eqb k a); [assumption|]. destruct (eqb k b); assumption.
  Qed.
  Lemma swap_vals (d : list (K * V)) a b d' : dict_wf d -> swap d a b = Ok d' -> Permutation (dvals d') (dvals d).
  Proof.
    intros W E. pose proof (swap_keys E) as Ek. pose proof (swap_get E) as Eg.
    assert (W' : dict_wf d') by (unfold dict_wf; rewrite Ek; exact W).
    apply (Permutation_map_inv' (f:=Some)); [congruence|].
    rewrite (dvals_get W), (dvals_get W'), Ek.
    rewrite (map_ext _ _ Eg).
    rewrite <- (map_map (fun k => if eqb k a then b else if eqb k b then a else k) (dget d)).
    apply Permutation_map. destruct (swap_Ok E) as (va & vb & Ea & Eb & _).
    apply transpose_perm; [exact W| |]; apply dget_key; eauto.
  Qed.
End Swap.

Lemma rearranged_refl bm : rearranged bm bm.
Proof. split; auto. Qed.
Lemma rearranged_trans a b c : rearranged a b -> rearranged b c -> rearranged a c.
Proof. intros [? ?] [? ?]; split; [congruence|]. eapply Permutation_trans; eauto. Qed.
Lemma rearranged_wf a b : rearranged a b -> dict_wf a -> dict_wf b.
Proof. intros [E _] W. unfold dict_wf. now rewrite E. Qed.
Lemma rearranged_one a b : rearranged a b -> one_to_one a -> one_to_one b.
Proof.
  intros R [W P]. split; [eapply rearranged_wf; eauto|]. destruct R as [E V].
  rewrite E. eapply Permutation_trans; [exact P|]. now apply Permutation_sym.
Qed.
Lemma swap_rearranged (bm bm' : bmap) a b : dict_wf bm -> swap bm a b = Ok bm' -> rearranged bm bm'.
Proof. intros W E. split; [eapply swap_keys; eauto|eapply swap_vals; eauto]. Qed.

(** * Drawing *)
Section Draw.
  Context {nm : num}.
  Variable o : optimizer nm.
  Variable rnd : nat -> nat.
  Lemma accept_spec bm a b ok : acceptMutation o bm a b = Ok ok ->
    ok = true <-> swappable (o_pins o) bm a b.
  Proof.
    unfold acceptMutation, swappable. destruct (eqb_spec a b) as [->|Nab].
    { intros [= <-]. split; [discriminate|]. intros [C _]. congruence. }
    intros E. apply bind_Ok in E as (ta & Ea & E). apply bind_Ok in E as (tb & Eb & E).
    apply dgetM_Ok in Ea. apply dgetM_Ok in Eb. injection E as <-.
    rewrite negb_true_iff, !orb_false_iff, !mem_nIn. rewrite !andb_false_iff, !mem_nIn, !negb_false_iff.
    unfold pinned, pinned_layer, pin_of, goes. rewrite !Nat.eqb_eq. split.
    - intros (((P1 & P2) & P3) & P4). split; [assumption|]. split; [assumption|]. split; [assumption|].
      exists tb, ta. repeat split; auto; tauto.
    - intros (_ & P1 & P2 & x & y & G1 & G2 & P3 & P4).
      assert (x = tb) by congruence. assert (y = ta) by congruence. subst.
      split; [split; [split; assumption|]|].
      + destruct (mem (Z.of_nat (fst a), @None string) (o_pins o)) eqn:Em.
        * right. apply P3. now apply mem_In.
        * left. now apply mem_nIn.
      + destruct (mem (Z.of_nat (fst b), @None string) (o_pins o)) eqn:Em.
        * right. apply P4. now apply mem_In.
        * left. now apply mem_nIn.
  Qed.
  Lemma accept_total bm a b : In a (dkeys bm) -> In b (dkeys bm) -> exists ok, acceptMutation o bm a b = Ok ok.
  Proof.
    intros Ha Hb. unfold acceptMutation. destruct (eqb a b); [eauto|].
    apply dget_key in Ha as (ta & Ea). apply dget_key in Hb as (tb & Eb).
    unfold dgetM. rewrite Ea, Eb. cbn. eauto.
  Qed.
  Lemma choice_In p k : choice o rnd p = Ok k -> In k (o_all o).
  Proof. unfold choice. intros E. apply of_opt_Ok in E. eapply nth_error_In; eauto. Qed.
  Lemma choice_total p : o_all o <> [] -> exists k, choice o rnd p = Ok k.
  Proof.
    intros Hne. unfold choice.
    destruct (nth_error (o_all o) _) eqn:E; [cbn; eauto|].
    apply nth_error_None in E.
    assert (List.length (o_all o) <> 0) by (destruct (o_all o); cbn; congruence).
    pose proof (Nat.mod_upper_bound (rnd p) _ H). lia.
  Qed.
  Lemma draw_Ok fuel : forall bm p a b p', draw o rnd fuel bm p = Ok (a, b, p') ->
    swappable (o_pins o) bm a b /\ In a (o_all o) /\ In b (o_all o).
  Proof.
    induction fuel as [|fuel IH]; intros bm p a b p'; cbn [draw]; [discriminate|].
    intros E. apply bind_Ok in E as (a0 & Ea & E). apply bind_Ok in E as (b0 & Eb & E).
    apply bind_Ok in E as (ok & Eo & E). destruct ok.
    - injection E as <- <- <-. split; [now apply (accept_spec Eo)|]. split; eapply choice_In; eauto.
    - eapply IH; eauto.
  Qed.
  (** The first acceptable pair of the stream is returned. *)
  Lemma draw_some bm n : o_all o = dkeys bm -> forall p,
    (exists a b, choice o rnd (p + 2 * n) = Ok a /\ choice o rnd (S (p + 2 * n)) = Ok b /\ swappable (o_pins o) bm a b) ->
    exists fuel r, fuel <= S n /\ draw o rnd fuel bm p = Ok r.
  Proof.
    intros Hall. induction n as [|n IH]; intros p (a & b & Ea & Eb & Sw).
    - rewrite Nat.mul_0_r, Nat.add_0_r in *. exists 1, (a, b, S (S p)). split; [lia|]. cbn [draw].
      rewrite Ea, Eb; cbn [bind].
      assert (Ha : In a (dkeys bm)) by (rewrite <- Hall; eapply choice_In; eauto).
      assert (Hb : In b (dkeys bm)) by (rewrite <- Hall; eapply choice_In; eauto).
      destruct (accept_total Ha Hb) as (ok & Eo).
      rewrite Eo; cbn [bind]. destruct ok; [reflexivity|].
      apply (proj2 (accept_spec Eo)) in Sw. discriminate.
    - destruct (IH (S (S p))) as (fuel & r & Hf & E).
      { exists a, b. replace (S (S p) + 2 * n) with (p + 2 * S n) by lia. auto. }
      destruct (choice_total p) as (a0 & Ea0).
      { intros Hn. apply choice_In in Ea. rewrite Hn in Ea. destruct Ea. }
      destruct (choice_total (S p)) as (b0 & Eb0).
      { intros Hn. apply choice_In in Ea. rewrite Hn in Ea. destruct Ea. }
      assert (Ha : In a0 (dkeys bm)) by (rewrite <- Hall; eapply choice_In; eauto).
      assert (Hb : In b0 (dkeys bm)) by (rewrite <- Hall; eapply choice_In; eauto).
      destruct (accept_total Ha Hb) as (ok & Eo).
      exists (S fuel). cbn [draw]. rewrite Ea0, Eb0; cbn [bind]. rewrite Eo; cbn [bind].
      destruct ok; [eexists; split; [lia|reflexivity]|].
      exists r. split; [lia|exact E].
  Qed.
  Lemma draw_conv fuel : forall bm p r, draw o rnd fuel bm p = Ok r ->
    exists n a b, n < fuel /\ choice o rnd (p + 2 * n) = Ok a /\ choice o rnd (S (p + 2 * n)) = Ok b /\ swappable (o_pins o) bm a b.
  Proof.
    induction fuel as [|fuel IH]; intros bm p r; cbn [draw]; [discriminate|].
    intros E. apply bind_Ok in E as (a0 & Ea & E). apply bind_Ok in E as (b0 & Eb & E).
    apply bind_Ok in E as (ok & Eo & E). destruct ok.
    - exists 0, a0, b0. rewrite Nat.mul_0_r, Nat.add_0_r. split; [lia|]. split; [assumption|]. split; [assumption|]. now apply (accept_spec Eo).
    - destruct (IH _ _ _ E) as (n & a & b & Hn & Ha & Hb & Hs). exists (S n), a, b.
      replace (p + 2 * S n) with (S (S p) + 2 * n) by lia. split; [lia|auto].
  Qed.
  Lemma draw_stuck bm : o_all o = dkeys bm -> o_all o <> [] ->
    (forall a b, In a (o_all o) -> In b (o_all o) -> ~ swappable (o_pins o) bm a b) ->
    forall fuel p, draw o rnd fuel bm p = Raise OutOfFuel.
  Proof.
    intros Hall Hne Hno. induction fuel as [|fuel IH]; intros p; cbn [draw]; [reflexivity|].
    destruct (choice_total p Hne) as (a & Ea). destruct (choice_total (S p) Hne) as (b & Eb).
    rewrite Ea, Eb; cbn [bind].
    pose proof (choice_In Ea) as Ha. pose proof (choice_In Eb) as Hb.
    destruct (@accept_total bm a b) as (ok & Eo); [now rewrite <- Hall|now rewrite <- Hall|].
    rewrite Eo; cbn [bind]. destruct ok; [|apply IH].
    exfalso. apply (Hno a b Ha Hb). now apply (accept_spec Eo).
  Qed.
End Draw.

(** * Pins *)
(** What the pins promise about a rearranged map *)
Definition pins_kept (pins : list pin) (bm bm' : bmap) : Prop :=
  (forall k, pinned pins k -> dget bm' k = dget bm k) /\
  (forall i, pinned_layer pins i -> stays bm i -> stays bm' i).
Lemma pins_kept_refl pins bm : pins_kept pins bm bm.
Proof. split; auto. Qed.
Lemma pins_kept_trans pins a b c : pins_kept pins a b -> pins_kept pins b c -> pins_kept pins a c.
Proof. intros [A1 A2] [B1 B2]. split; [intros; rewrite B1, A1; auto|auto]. Qed.
Lemma swap_pins pins (bm bm' : bmap) a b : swappable pins bm a b -> swap bm a b = Ok bm' -> pins_kept pins bm bm'.
Proof.
  intros (Nab & Pa & Pb & ta & tb & Ga & Gb & La & Lb) E. pose proof (swap_get E) as Eg. split.
  - intros k Hk. rewrite Eg. destruct (eqb_spec k a) as [->|]; [contradiction|].
    destruct (eqb_spec k b) as [->|]; [contradiction|]. reflexivity.
  - intros i Hi Hs k t Ei Gk. unfold goes in *. rewrite Eg in Gk.
    destruct (eqb_spec k a) as [->|].
    { assert (t = tb) as -> by congruence. rewrite <- Ei. apply La. now rewrite Ei. }
    destruct (eqb_spec k b) as [->|].
    { assert (t = ta) as -> by congruence. rewrite <- Ei. apply Lb. now rewrite Ei. }
    eapply Hs; eauto.
Qed.

(** Nothing enters a layer all of whose keys stay. *)
Lemma stays_closed bm i : one_to_one bm -> stays bm i -> forall k t, goes bm k t -> fst t = i -> fst k = i.
Proof.
  intros [W P] Hs k t G Ht.
  set (f := fun x : key => Nat.eqb (fst x) i).
  assert (L : List.length (filter f (dkeys bm)) = List.length (filter f (dvals bm))).
  { assert (Hp : forall l r, Permutation l r -> List.length (filter f l) = List.length (filter f r)).
    { clear. induction 1; cbn; auto; [destruct (f x); cbn; auto|destruct (f x), (f y); cbn; auto|congruence]. }
    apply Hp, P. }
  destruct (Nat.eq_dec (fst k) i) as [|Nk]; [assumption|exfalso].
  apply dget_In in G.
  assert (A : List.length (filter f (dkeys bm)) < List.length (filter f (dvals bm))); [|lia].
  assert (Hs' : forall k t, In (k, t) bm -> fst k = i -> fst t = i).
  { intros k' t' Hin Hk'. apply (Hs k' t' Hk'). now apply (dget_In_iff _ _ _ W). }
  clear Hs W P L. revert G Hs'. unfold dkeys, dvals. induction bm as [|[a b] bm IH]; intros G Hs'; [destruct G|].
  assert (Hs2 : forall k t, In (k, t) bm -> fst k = i -> fst t = i) by (intros; eapply Hs'; [right; eauto|auto]).
  assert (Le : List.length (filter f (map fst bm)) <= List.length (filter f (map snd bm))).
  { clear - Hs2. induction bm as [|[x y] bm IH]; [cbn; lia|].
    assert (IH' := IH (fun k t H => Hs2 k t (or_intror H))). cbn [map filter fst snd].
    unfold f in *. destruct (Nat.eqb_spec (fst x) i) as [Ex|].
    - rewrite (proj2 (Nat.eqb_eq (fst y) i)) by (eapply Hs2; [left; reflexivity|assumption]). cbn. lia.
    - destruct (Nat.eqb (fst y) i); cbn; lia. }
  cbn [map filter fst snd]. destruct G as [G|G].
  - injection G as -> ->. unfold f in *.
    rewrite (proj2 (Nat.eqb_neq _ _) Nk), (proj2 (Nat.eqb_eq _ _) Ht). cbn. lia.
  - specialize (IH G Hs2). unfold f in *. destruct (Nat.eqb_spec (fst a) i) as [Ea|].
    + rewrite (proj2 (Nat.eqb_eq (fst b) i)) by (eapply Hs'; [left; reflexivity|assumption]). cbn. lia.
    + destruct (Nat.eqb (fst b) i); cbn; lia.
Qed.

(** * mutate *)
Section Mutate.
  Context {nm : num}.
  Variable o : optimizer nm.
  Variable rnd : nat -> nat.
  Variable ord : list nat -> list nat.
  Variable fuel : nat.
  Lemma mutate_Ok c bm p c' bm' d p' : mutate o rnd ord fuel c bm p = Ok (c', bm', d, p') ->
    exists a b, draw o rnd fuel bm p = Ok (a, b, p') /\ swap bm a b = Ok bm' /\
      let affected := ord (dedup (triads_of o a ++ triads_of o b)) in
      exists c1, shift o nsub bm affected c = Ok c1 /\ shift o nadd bm' affected c1 = Ok c' /\
        d = nsub (reffort c') (reffort c).
  Proof.
    unfold mutate. intros E. apply bind_Ok in E as ([[a b] q] & Ed & E).
    apply bind_Ok in E as (c1 & E1 & E). apply bind_Ok in E as (bm1 & Es & E).
    apply bind_Ok in E as (c2 & E2 & E). injection E as <- <- <- <-. eauto 10.
  Qed.
  Definition good (bm0 bm : bmap) : Prop := rearranged bm0 bm /\ pins_kept (o_pins o) bm0 bm.
  Lemma good_swap bm0 bm bm' a b : dict_wf bm0 -> good bm0 bm -> swappable (o_pins o) bm a b -> swap bm a b = Ok bm' -> good bm0 bm'.
  Proof.
    intros W [R P] S E. split.
    - eapply rearranged_trans; eauto. eapply swap_rearranged; eauto. eapply rearranged_wf; eauto.
    - eapply pins_kept_trans; eauto. eapply swap_pins; eauto.
  Qed.
  Lemma mutate_good bm0 c bm p c' bm' d p' : dict_wf bm0 -> good bm0 bm ->
    mutate o rnd ord fuel c bm p = Ok (c', bm', d, p') -> good bm0 bm'.
  Proof.
    intros W G E. destruct (mutate_Ok E) as (a & b & Ed & Es & _).
    eapply good_swap; eauto. eapply draw_Ok; eauto.
  Qed.
  Lemma mutate_quick_good bm0 bm p bm' p' : dict_wf bm0 -> good bm0 bm ->
    mutate_quick o rnd fuel bm p = Ok (bm', p') -> good bm0 bm'.
  Proof.
    intros W G. unfold mutate_quick. intros E. apply bind_Ok in E as ([[a b] q] & Ed & E).
    apply bind_Ok in E as (bm1 & Es & E). injection E as <- <-.
    eapply good_swap; eauto. eapply draw_Ok; eauto.
  Qed.
  Lemma randomize_good n : forall bm0 bm p bm' p', dict_wf bm0 -> good bm0 bm ->
    randomize rnd fuel o n bm p = Ok (bm', p') -> good bm0 bm'.
  Proof.
    induction n as [|n IH]; intros bm0 bm p bm' p' W G; cbn [randomize]; [intros [= <- <-]; assumption|].
    intros E. apply bind_Ok in E as ([bm1 p1] & E1 & E). cbn [fst snd] in E.
    eapply IH; [exact W| |exact E]. eapply mutate_quick_good; eauto.
  Qed.
  Lemma quick_exchanged bm p bm' p' : mutate_quick o rnd fuel bm p = Ok (bm', p') -> exchanged bm bm'.
  Proof.
    unfold mutate_quick. intros E. apply bind_Ok in E as ([[a b] q] & Ed & E). apply bind_Ok in E as (bm1 & Es & E). injection E as <- <-.
    destruct (draw_Ok Ed) as ((Ne & _) & _).
    unfold swap in Es. apply bind_Ok in Es as (ta & Ha & Es). apply bind_Ok in Es as (tb & Hb & Es). injection Es as <-.
    apply dgetM_Ok in Ha. apply dgetM_Ok in Hb. exists a, b, ta, tb. unfold goes.
    split; [exact Ne|]. split; [exact Ha|]. split; [exact Hb|].
    assert (Nba : b <> a) by congruence. pose proof (proj2 (eqb_neq b a) Nba) as Eb.
    rewrite !dget_dset, !eqb_refl, Eb. split; [reflexivity|]. split; [reflexivity|].
    intros k Na Nb. rewrite !dget_dset, (proj2 (eqb_neq k a) Na), (proj2 (eqb_neq k b) Nb). reflexivity.
  Qed.
  Lemma randomize_exchanges n bm p bm' p' : randomize rnd fuel o n bm p = Ok (bm', p') -> exchanges n bm bm'.
  Proof.
    revert bm p. induction n as [|n IH]; intros bm p; cbn [randomize]; [intros [= <- <-]; constructor|].
    intros E. apply bind_Ok in E as ([bm1 p1] & E1 & E). econstructor; [exact (quick_exchanged E1)|exact (IH _ _ E)].
  Qed.
End Mutate.
