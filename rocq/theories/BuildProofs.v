(** Graphs of build statements: what any run of ninja arrives at. *)
From Verif Require Import Base BuildModel.
From Coq Require Import Lia Permutation Wf_nat.
Open Scope string_scope.
Open Scope list_scope.
Unset Implicit Arguments.

Section Graph.
  Context {V : Type}.
  Variable g : list stmt.
  Variable rds : stmt -> list string.
  Variable run : stmt -> list (option V) -> string -> V.
  Variable pool : stmt -> bool.
  Notation files := (string -> option V).
  Definition built (p : string) : Prop := exists s, In s g /\ In p (outs s).
  (** [F] is consistent: sources are as before, outputs are what their commands make of [F]. *)
  Definition consistent (f F : files) : Prop :=
    (forall p, ~ built p -> F p = f p) /\
    (forall s p, In s g -> In p (outs s) -> F p = Some (run s (map F (rds s)) p)).
  (** Every output has one statement; dependencies have smaller rank; commands
      read only what is declared, or sources. *)
  Variable rank : stmt -> nat.
  Hypothesis once : NoDup (flat_map outs g).
  Hypothesis ranked : forall s p t, In s g -> In p (needs s) -> In t g -> In p (outs t) -> rank t < rank s.
  Hypothesis declared : forall s p, In s g -> In p (rds s) -> built p -> In p (needs s).

  Lemma one_stmt i j s t p : nth_error g i = Some s -> nth_error g j = Some t -> In p (outs s) -> In p (outs t) -> i = j.
  Proof.
    clear ranked declared. revert i j once. induction g as [|x l IH]; intros i j N Hi Hj Is It; [destruct i; discriminate Hi|].
    cbn [flat_map] in N.
    assert (N2 : NoDup (flat_map outs l)).
    { clear - N. induction (outs x) as [|a o IHo]; [exact N|]. apply IHo. inversion N; assumption. }
    assert (X : forall y q, In y l -> In q (outs y) -> In q (outs x) -> False).
    { intros y q Iy Iq Iq'. clear - N Iy Iq Iq'. induction (outs x) as [|a o IH]; [destruct Iq'|].
      cbn [app] in N. inversion N as [|? ? Na N']; subst. destruct Iq' as [->|Iq']; [|auto].
      apply Na, in_app_iff. right. apply in_flat_map. eauto. }
    destruct i as [|i], j as [|j]; cbn [nth_error] in Hi, Hj.
    - reflexivity.
    - injection Hi as <-. exfalso. apply nth_error_In in Hj. eauto.
    - injection Hj as <-. exfalso. apply nth_error_In in Hi. eauto.
    - f_equal. eapply IH; eassumption.
  Qed.
  Lemma one_stmt_In s t p : In s g -> In t g -> In p (outs s) -> In p (outs t) -> s = t.
  Proof.
    intros Is It Ps Pt. apply In_nth_error in Is as (i & Hi). apply In_nth_error in It as (j & Hj).
    assert (i = j) by (eapply one_stmt; eassumption). congruence.
  Qed.

  (** * The result *)
  Definition producer (p : string) : option stmt := find (fun s => mem p (outs s)) g.
  Fixpoint val (n : nat) (f : files) (p : string) : option V :=
    match producer p with
    | None => f p
    | Some s => match n with O => None | S n' => Some (run s (map (val n' f) (rds s)) p) end
    end.
  Lemma producer_Some p s : producer p = Some s -> In s g /\ In p (outs s).
  Proof. unfold producer. intros E. apply find_some in E as [I E]. split; [exact I|]. apply mem_In, E. Qed.
  Lemma producer_of p s : In s g -> In p (outs s) -> producer p = Some s.
  Proof.
    intros I O. destruct (producer p) as [t|] eqn:E.
    - apply producer_Some in E as [It Ot]. f_equal. eapply one_stmt_In; eassumption.
    - exfalso. unfold producer in E. pose proof (find_none _ _ E s I) as K. cbn beta in K. apply mem_nIn in K. contradiction.
  Qed.
  Lemma producer_None p : ~ built p -> producer p = None.
  Proof. intros N. destruct (producer p) as [s|] eqn:E; [|reflexivity]. exfalso. apply N. exists s. apply producer_Some, E. Qed.
  Lemma val_stable f n : forall m p, (forall s, producer p = Some s -> rank s < n /\ rank s < m) -> val n f p = val m f p.
  Proof.
    induction n as [|n IH]; intros m p H.
    - destruct (producer p) as [s|] eqn:E; [destruct (H s eq_refl); lia|]. destruct m; cbn [val]; rewrite E; reflexivity.
    - destruct (producer p) as [s|] eqn:E; [|destruct m; cbn [val]; rewrite E; reflexivity].
      destruct (H s eq_refl) as [H1 H2]. destruct m as [|m]; [lia|]. cbn [val]. rewrite E. f_equal.
      apply producer_Some in E as [Is Os].
      assert (X : map (val n f) (rds s) = map (val m f) (rds s)); [|rewrite X; reflexivity].
      apply map_ext_in. intros q Iq. apply IH. intros t Et. apply producer_Some in Et as [It Ot].
      assert (rank t < rank s) by (apply (ranked s q t); auto; apply declared; auto; exists t; auto). lia.
  Qed.
  Definition result (f : files) : files := val (S (list_max (map rank g))) f.
  Lemma result_consistent f : consistent f (result f).
  Proof.
    split.
    - intros p N. unfold result. cbn [val]. rewrite producer_None by exact N. reflexivity.
    - intros s p Is Os. unfold result. cbn [val]. rewrite (producer_of p s Is Os). f_equal.
      assert (X : map (val (list_max (map rank g)) f) (rds s) = map (val (S (list_max (map rank g))) f) (rds s)); [|rewrite X; reflexivity].
      apply map_ext_in. intros q Iq. apply val_stable. intros t Et. apply producer_Some in Et as [It Ot].
      assert (rank t < rank s) by (apply (ranked s q t); auto; apply declared; auto; exists t; auto).
      assert (rank s <= list_max (map rank g)).
      { pose proof (proj1 (list_max_le (map rank g) (list_max (map rank g))) (le_n _)) as F. rewrite Forall_forall in F. apply F, in_map, Is. }
      lia.
  Qed.
  (** Nothing else is consistent. *)
  Lemma consistent_unique f F F' : consistent f F -> consistent f F' -> forall p, F p = F' p.
  Proof.
    intros [A B] [A' B'].
    assert (G : forall n p s, In s g -> In p (outs s) -> rank s < n -> F p = F' p).
    { induction n as [|n IH]; intros p s Is Os Hn; [lia|]. rewrite (B s p Is Os), (B' s p Is Os). f_equal.
      assert (X : map F (rds s) = map F' (rds s)); [|rewrite X; reflexivity]. apply map_ext_in. intros q Iq.
      destruct (producer q) as [t|] eqn:E.
      - apply producer_Some in E as [It Ot]. apply (IH q t It Ot).
        assert (rank t < rank s) by (apply (ranked s q t); auto; apply declared; auto; exists t; auto). lia.
      - assert (N : ~ built q) by (intros (t & It & Ot); rewrite (producer_of q t It Ot) in E; discriminate E).
        rewrite (A q N), (A' q N). reflexivity. }
    intros p. destruct (producer p) as [s|] eqn:E.
    - apply producer_Some in E as [Is Os]. exact (G (S (rank s)) p s Is Os (le_n _)).
    - assert (N : ~ built p) by (intros (t & It & Ot); rewrite (producer_of p t It Ot) in E; discriminate E).
      rewrite (A p N), (A' p N). reflexivity.
  Qed.

  (** * Runs *)
  Inductive reach (c : conf) : conf -> Prop :=
    | r_refl : reach c c
    | r_step c' c'' : reach c c' -> nstep g rds run pool c' c'' -> reach c c''
    | r_noise c' c'' : reach c c' -> nnoise g c' c'' -> reach c c''.
  Record inv (f F : files) (c : @conf V) : Prop := mkInv {
    i_src : forall p, ~ built p -> fs c p = f p;
    i_done : forall i s p, In i (finished c) -> nth_error g i = Some s -> In p (outs s) -> fs c p = F p;
    i_valid : forall i, In i (finished c) \/ In i (map fst (running c)) -> exists s, nth_error g i = Some s;
    i_ready : forall i s p j t, In i (map fst (running c)) -> nth_error g i = Some s -> In p (needs s) -> nth_error g j = Some t -> In p (outs t) -> In j (finished c);
    i_load : forall i s vs, In (i, Loaded vs) (running c) -> nth_error g i = Some s -> vs = map F (rds s);
    i_apart : NoDup (finished c ++ map fst (running c)) }.
  Lemma loads f F c i s : consistent f F -> inv f F c -> In i (map fst (running c)) -> nth_error g i = Some s -> map (fs c) (rds s) = map F (rds s).
  Proof.
    intros [A B] I Ir Hi. apply map_ext_in. intros p Ip. assert (Is : In s g) by (eapply nth_error_In, Hi).
    destruct (producer p) as [t|] eqn:E.
    - apply producer_Some in E as [It Ot]. assert (It0 := It). apply In_nth_error in It as (j & Hj).
      eapply i_done; [exact I| |exact Hj|exact Ot]. eapply i_ready; [exact I|exact Ir|exact Hi| |exact Hj|exact Ot].
      apply declared; [exact Is|exact Ip|]. exists t. auto.
    - assert (N : ~ built p) by (intros (t & It & Ot); rewrite (producer_of p t It Ot) in E; discriminate E).
      rewrite (i_src _ _ _ I p N), (A p N). reflexivity.
  Qed.
  Lemma inv_step f F c c' : consistent f F -> inv f F c -> nstep g rds run pool c c' -> inv f F c'.
  Proof.
    intros C I H. destruct H as [h r d i s Hi Nd Nr Hready Hp|h r1 r2 d i s Hi|h r1 r2 d i s vs Hi].
    - destruct I as [I1 I2 I3 I4 I5 I6]. cbn [fs running finished] in *. constructor; cbn [fs running finished map fst].
      + exact I1.
      + exact I2.
      + intros j [K|[<-|K]]; [apply I3; auto|exists s; exact Hi|apply I3; auto].
      + intros j t p k u [<-|K] Hj Ip Hk Ou; [|eapply I4; eassumption]. rewrite Hi in Hj. injection Hj as <-. eapply Hready; eassumption.
      + intros j t vs [X|K] Hj; [discriminate X|]. eapply I5; eassumption.
      + apply (Permutation_NoDup (l := i :: (d ++ map fst r))); [apply Permutation_middle|].
        constructor; [|exact I6]. rewrite in_app_iff. tauto.
    - assert (L : map h (rds s) = map F (rds s)).
      { apply (loads f F (mkConf h (r1 ++ (i, Started) :: r2) d) i s C I); [|exact Hi]. cbn [running]. rewrite map_app. apply in_app_iff. right. left. reflexivity. }
      destruct I as [I1 I2 I3 I4 I5 I6]. cbn [fs running finished] in *.
      assert (E : map fst (r1 ++ (i, Loaded (map h (rds s))) :: r2) = map fst (r1 ++ (i, @Started V) :: r2)) by (rewrite !map_app; reflexivity).
      constructor; cbn [fs running finished]; try (rewrite E; assumption); try assumption.
      intros j t vs K Hj. apply in_app_iff in K as [K|[K|K]].
      + eapply I5; [|exact Hj]. apply in_app_iff. left. exact K.
      + injection K as <- <-. rewrite Hi in Hj. injection Hj as <-. exact L.
      + eapply I5; [|exact Hj]. apply in_app_iff. right. right. exact K.
    - destruct I as [I1 I2 I3 I4 I5 I6]. cbn [fs running finished] in *.
      assert (Is : In s g) by (eapply nth_error_In, Hi).
      assert (Ev : vs = map F (rds s)) by (eapply I5; [apply in_app_iff; right; left; reflexivity|exact Hi]).
      assert (Sub : forall j, In j (map fst (r1 ++ r2)) -> In j (map fst (r1 ++ (i, Loaded vs) :: r2))).
      { intros j. rewrite !map_app, !in_app_iff. cbn [map fst In]. tauto. }
      assert (Nd : ~ In i d).
      { intros K. rewrite map_app in I6. cbn [map fst] in I6. rewrite app_assoc in I6. apply NoDup_remove_2 in I6. apply I6. rewrite !in_app_iff. tauto. }
      constructor; cbn [fs running finished].
      + intros p N. unfold write. destruct (mem p (outs s)) eqn:E; [|apply I1, N]. exfalso. apply N. exists s. split; [exact Is|]. apply mem_In, E.
      + intros j t p [<-|K] Hj Ot; unfold write.
        * rewrite Hi in Hj. injection Hj as <-. rewrite (proj2 (mem_In _ _) Ot). rewrite (proj2 C s p Is Ot), Ev. reflexivity.
        * destruct (mem p (outs s)) eqn:E; [|eapply I2; eassumption]. apply mem_In in E.
          exfalso. apply Nd. rewrite (one_stmt i j s t p Hi Hj E Ot). exact K.
      + intros j [[<-|K]|K]; [exists s; exact Hi|apply I3; auto|apply I3; right; apply Sub, K].
      + intros j t p k u K Hj Ip Hk Ou. right. eapply I4; [apply Sub, K|eassumption..].
      + intros j t us K Hj. eapply I5; [|exact Hj]. apply in_app_iff in K as [K|K]; apply in_app_iff; [left; exact K|right; right; exact K].
      + rewrite map_app in I6 |- *. cbn [map fst] in I6. cbn [app].
        apply (Permutation_NoDup (l := d ++ map fst r1 ++ i :: map fst r2)); [|exact I6].
        rewrite app_assoc. symmetry. rewrite app_assoc. apply Permutation_middle.
  Qed.
  Lemma inv_noise f F c c' : consistent f F -> inv f F c -> nnoise g c c' -> inv f F c'.
  Proof.
    intros C I H. destruct H as [h h' r d i s ph Ir Hi Hn]. destruct I as [I1 I2 I3 I4 I5 I6]. cbn [fs running finished] in *.
    assert (Is : In s g) by (eapply nth_error_In, Hi).
    constructor; cbn [fs running finished]; try assumption.
    - intros p N. rewrite Hn; [apply I1, N|]. intros O. apply N. exists s. auto.
    - intros j t p K Hj Ot. rewrite Hn; [eapply I2; eassumption|]. intros O.
      assert (E : i = j) by (eapply one_stmt; eassumption). subst j.
      apply (in_split i d) in K as (d1 & d2 & ->). rewrite <- app_assoc in I6. cbn [app] in I6. apply NoDup_remove_2 in I6. apply I6.
      rewrite !in_app_iff. right. right. change i with (fst (i, ph)). apply in_map, Ir.
  Qed.
  Lemma reach_inv f F c : consistent f F -> reach (nfirst f) c -> inv f F c.
  Proof.
    intros C. induction 1 as [|c' c'' _ IH H|c' c'' _ IH H].
    - constructor; cbn [fs running finished nfirst map app In]; try tauto; try constructor.
    - eapply inv_step; eassumption.
    - eapply inv_noise; eassumption.
  Qed.
  (** Every finished statement has left the files of [F], whatever the order. *)
  Theorem run_result f F c : consistent f F -> reach (nfirst f) c ->
    (forall p, ~ built p -> fs c p = f p) /\ (forall i s p, In i (finished c) -> nth_error g i = Some s -> In p (outs s) -> fs c p = F p).
  Proof. intros C R. pose proof (reach_inv f F c C R) as I. split; [apply (i_src _ _ _ I)|apply (i_done _ _ _ I)]. Qed.

  (** Runs do not get stuck. *)
  Theorem run_progress f c : reach (nfirst f) c ->
    (exists c', nstep g rds run pool c c') \/ (running c = [] /\ forall i, i < length g -> In i (finished c)).
  Proof.
    intros R. pose proof (reach_inv f (result f) c (result_consistent f) R) as I.
    destruct c as [h r d]. destruct r as [|[i ph] r].
    - destruct (forallb (fun i => mem i d) (seq 0 (length g))) eqn:E.
      + right. split; [reflexivity|]. intros i Hi. cbn [finished]. apply mem_In.
        exact (proj1 (forallb_forall _ _) E i (proj2 (in_seq _ _ _) (conj (Nat.le_0_l _) Hi))).
      + left.
        (* the statement of smallest rank that is missing *)
        assert (M : exists i s, nth_error g i = Some s /\ ~ In i d /\ forall j t, nth_error g j = Some t -> rank t < rank s -> In j d).
        { assert (Ex : exists i s, nth_error g i = Some s /\ ~ In i d).
          { destruct (existsb (fun i => negb (mem i d)) (seq 0 (length g))) eqn:X.
            - apply existsb_exists in X as (i & Ii & X). apply in_seq in Ii. destruct (nth_error g i) as [s|] eqn:Es; [|apply nth_error_None in Es; lia].
              exists i, s. split; [exact Es|]. apply mem_nIn. destruct (mem i d); [discriminate X|reflexivity].
            - exfalso. apply (proj2 (not_true_iff_false _)) in E. apply E, forallb_forall. intros i Ii.
              destruct (mem i d) eqn:Em; [reflexivity|]. exfalso. apply (proj2 (not_true_iff_false _)) in X. apply X, existsb_exists. exists i. rewrite Em. auto. }
          destruct Ex as (i & s & Hi & Nd). remember (rank s) as n eqn:Hn. revert i s Hi Nd Hn.
          induction n as [n IH] using (well_founded_induction lt_wf). intros i s Hi Nd Hn.
          destruct (existsb (fun j => negb (mem j d) && match nth_error g j with Some t => Nat.ltb (rank t) n | None => false end) (seq 0 (length g))) eqn:X.
          - apply existsb_exists in X as (j & _ & X). apply andb_true_iff in X as [X1 X2].
            destruct (nth_error g j) as [t|] eqn:Hj; [|discriminate X2]. apply Nat.ltb_lt in X2.
            apply (IH (rank t) X2 j t Hj); [|reflexivity]. apply mem_nIn. destruct (mem j d); [discriminate X1|reflexivity].
          - exists i, s. split; [exact Hi|]. split; [exact Nd|]. intros j t Hj Hr. apply mem_In. destruct (mem j d) eqn:Em; [reflexivity|]. exfalso.
            apply (proj2 (not_true_iff_false _)) in X. apply X, existsb_exists. exists j. split; [apply in_seq; split; [lia|]; apply nth_error_Some; congruence|].
            rewrite Em, Hj. cbn. apply Nat.ltb_lt. lia. }
        destruct M as (i & s & Hi & Nd & Hm). eexists. apply (n_start g rds run pool h [] d i s Hi Nd); [intros []| |intros _ j t []].
        intros p j t Ip Hj Ot. apply (Hm j t Hj). apply (ranked s p t); auto; eapply nth_error_In; eassumption.
    - left. destruct (i_valid _ _ _ I i) as (s & Hi); [right; left; reflexivity|]. destruct ph as [|vs].
      + eexists. apply (n_read g rds run pool h [] r d i s Hi).
      + eexists. apply (n_finish g rds run pool h [] r d i s vs Hi).
  Qed.
  (** They end: each statement is started, reads and finishes once. *)
  Definition left_to_do (c : @conf V) : nat :=
    3 * length g - 3 * length (finished c) - fold_right (fun ip n => (match snd ip with Started => 1 | Loaded _ => 2 end) + n) 0 (running c).
  Lemma weight_app (a b : list (nat * @phase V)) : fold_right (fun ip n => (match snd ip with Started => 1 | Loaded _ => 2 end) + n) 0 (a ++ b) =
    fold_right (fun ip n => (match snd ip with Started => 1 | Loaded _ => 2 end) + n) 0 a + fold_right (fun ip n => (match snd ip with Started => 1 | Loaded _ => 2 end) + n) 0 b.
  Proof. induction a as [|x a IH]; cbn [app fold_right]; [reflexivity|]. rewrite IH. lia. Qed.
  Lemma weight_le (a : list (nat * @phase V)) : fold_right (fun ip n => (match snd ip with Started => 1 | Loaded _ => 2 end) + n) 0 a <= 2 * length a.
  Proof. induction a as [|[i []] a IH]; cbn [fold_right length snd]; lia. Qed.
  Theorem run_ends f c c' : reach (nfirst f) c -> nstep g rds run pool c c' -> left_to_do c' < left_to_do c.
  Proof.
    intros R H. assert (R' : reach (nfirst f) c') by (eapply r_step; eassumption).
    pose proof (reach_inv f (result f) c' (result_consistent f) R') as I.
    assert (B : length (finished c') + length (running c') <= length g).
    { pose proof (i_apart _ _ _ I) as N. apply (NoDup_incl_length (l' := seq 0 (length g))) in N.
      - rewrite app_length, map_length, seq_length in N. exact N.
      - intros j K. apply in_seq. split; [lia|]. apply in_app_iff in K. destruct (i_valid _ _ _ I j K) as (s & Hs). cbn. apply nth_error_Some. congruence. }
    pose proof (weight_le (running c')) as Wl. clear I R R'. unfold left_to_do.
    destruct H as [h r d i s Hi Nd Nr Hready Hp|h r1 r2 d i s Hi|h r1 r2 d i s vs Hi]; cbn [running finished length fold_right snd] in *.
    - lia.
    - rewrite !weight_app in *. cbn [fold_right snd] in *. rewrite app_length in *. cbn [length] in *. lia.
    - rewrite !weight_app in *. cbn [fold_right snd] in *. rewrite app_length in *. lia.
  Qed.

  (** [n] steps, not counting noise *)
  Inductive reach_n (c : conf) : nat -> conf -> Prop :=
    | rn_refl : reach_n c 0 c
    | rn_step n c' c'' : reach_n c n c' -> nstep g rds run pool c' c'' -> reach_n c (S n) c''
    | rn_noise n c' c'' : reach_n c n c' -> nnoise g c' c'' -> reach_n c n c''.
  Lemma reach_n_reach c n c' : reach_n c n c' -> reach c c'.
  Proof. induction 1; econstructor; eassumption. Qed.
  Lemma noise_left c c' : nnoise g c c' -> left_to_do c' = left_to_do c.
  Proof. intros [h h' r d i s ph Ir Hi Hn]. reflexivity. Qed.
  Lemma reach_n_bound f n c : reach_n (nfirst f) n c -> n <= 3 * length g.
  Proof.
    intros R. assert (H : n + left_to_do c <= 3 * length g); [|lia].
    induction R as [|n c' c'' R IH H|n c' c'' R IH H].
    - unfold left_to_do, nfirst. cbn [finished running length fold_right]. lia.
    - pose proof (run_ends f c' c'' (reach_n_reach _ _ _ R) H). lia.
    - rewrite (noise_left _ _ H). exact IH.
  Qed.
  Definition complete (c : @conf V) : Prop := running c = [] /\ forall i, i < length g -> In i (finished c).
  Lemma reach_trans a b c : reach a b -> reach b c -> reach a c.
  Proof. intros R1 R2. induction R2; [exact R1| |]; econstructor; eassumption. Qed.
  Lemma completes f c : reach (nfirst f) c -> exists c', reach c c' /\ complete c'.
  Proof.
    remember (left_to_do c) as n eqn:E. revert c E. induction n as [n IH] using (well_founded_induction lt_wf). intros c -> R.
    destruct (run_progress f c R) as [(c' & H)|H].
    - destruct (IH (left_to_do c') (run_ends f c c' R H) c' eq_refl) as (c2 & R2 & C2); [eapply r_step; eassumption|].
      exists c2. split; [|exact C2]. eapply reach_trans; [|exact R2]. eapply r_step; [apply r_refl|exact H].
    - exists c. split; [apply r_refl|exact H].
  Qed.
  Lemma complete_files f F c : consistent f F -> reach (nfirst f) c -> complete c -> forall p, fs c p = F p.
  Proof.
    intros C R [_ K] p. destruct (run_result f F c C R) as [A B]. destruct (producer p) as [s|] eqn:E.
    - apply producer_Some in E as [Is Os]. apply In_nth_error in Is as (i & Hi). eapply B; [|exact Hi|exact Os]. apply K, nth_error_Some. congruence.
    - assert (N : ~ built p) by (intros (t & It & Ot); rewrite (producer_of p t It Ot) in E; discriminate E).
      rewrite (A p N). symmetry. apply (proj1 C p N).
  Qed.
  (** At most one command of the pool is running. *)
  Lemma pool_once f c : reach (nfirst f) c -> forall i j s t, In i (map fst (running c)) -> In j (map fst (running c)) ->
    nth_error g i = Some s -> nth_error g j = Some t -> pool s = true -> pool t = true -> i = j.
  Proof.
    induction 1 as [|c' c'' R IH H|c' c'' R IH H].
    - intros i j s t [].
    - destruct H as [h r d i s Hi Nd Nr Hready Hp|h r1 r2 d i s Hi|h r1 r2 d i s vs Hi]; cbn [running] in *.
      + intros a b u v [<-|Ia] [<-|Ib] Ha Hb Pu Pv.
        * reflexivity.
        * exfalso. cbn [fst] in Ha. rewrite Hi in Ha. injection Ha as <-. rewrite (Hp Pu b v Ib Hb) in Pv. discriminate Pv.
        * exfalso. cbn [fst] in Hb. rewrite Hi in Hb. injection Hb as <-. rewrite (Hp Pv a u Ia Ha) in Pu. discriminate Pu.
        * eapply IH; eassumption.
      + rewrite map_app in *. exact IH.
      + intros a b u v Ia Ib. apply IH; rewrite map_app in *; cbn [map fst] in *; rewrite in_app_iff in *; cbn [In]; tauto.
    - destruct H as [h h' r d i s ph Ir Hi Hn]. exact IH.
  Qed.

  (** * Running ninja again *)
  (** [d] says which statements are run again. *)
  Variable d : stmt -> bool.
  Section Again.
    Variables f f' : files.       (* sources of the first and second run *)
    Hypothesis d_src : forall s p, In s g -> d s = false -> In p (ins s ++ imps s) -> ~ built p -> f' p = f p.
    Hypothesis d_out : forall s p t, In s g -> d s = false -> In p (ins s ++ imps s) -> In t g -> In p (outs t) -> d t = false.
    Hypothesis d_rest : forall s p, In s g -> d s = false -> In p (rds s) -> ~ In p (ins s ++ imps s) ->
      (~ built p /\ f' p = f p) \/ exists t, In t g /\ In p (outs t) /\ d t = false.
    Theorem clean_same s p : In s g -> d s = false -> In p (outs s) -> result f' p = result f p.
    Proof.
      intros Is Ds Os. pose proof (result_consistent f) as [A B]. pose proof (result_consistent f') as [A' B'].
      assert (G : forall n s p, In s g -> d s = false -> In p (outs s) -> rank s < n -> result f' p = result f p).
      { clear s p Is Ds Os. induction n as [|n IH]; intros s p Is Ds Os Hn; [lia|]. rewrite (B s p Is Os), (B' s p Is Os). f_equal.
        assert (X : map (result f') (rds s) = map (result f) (rds s)); [|rewrite X; reflexivity]. apply map_ext_in. intros q Iq.
        assert (K : (~ built q /\ f' q = f q) \/ exists t, In t g /\ In q (outs t) /\ d t = false).
        { destruct (in_dec string_dec q (ins s ++ imps s)) as [Id|Nd]; [|eapply d_rest; eassumption].
          destruct (producer q) as [t|] eqn:E.
          - apply producer_Some in E as [It Ot]. right. exists t. split; [exact It|]. split; [exact Ot|]. eapply (d_out s q t); eassumption.
          - left. assert (N : ~ built q) by (intros (t & It & Ot); rewrite (producer_of q t It Ot) in E; discriminate E). split; [exact N|]. eapply d_src; eassumption. }
        destruct K as [[N E]|(t & It & Ot & Dt)].
        - rewrite (A q N), (A' q N). exact E.
        - apply (IH t q It Dt Ot). assert (rank t < rank s) by (apply (ranked s q t); auto; apply declared; auto; exists t; auto). lia. }
      exact (G (S (rank s)) s p Is Ds Os (le_n _)).
    Qed.
    (** What the first run left behind, with the new sources *)
    Definition leftover : files := fun p => if existsb (fun s => mem p (outs s)) g then result f p else f' p.
    Lemma leftover_src p : ~ built p -> leftover p = f' p.
    Proof.
      intros N. unfold leftover. destruct (existsb _ g) eqn:E; [|reflexivity]. exfalso. apply N.
      apply existsb_exists in E as (s & Is & O). exists s. split; [exact Is|]. apply mem_In, O.
    Qed.
    Lemma leftover_out p : built p -> leftover p = result f p.
    Proof.
      intros (s & Is & O). unfold leftover. destruct (existsb _ g) eqn:E; [reflexivity|]. exfalso.
      apply (proj2 (not_true_iff_false _)) in E. apply E, existsb_exists. exists s. split; [exact Is|]. apply mem_In, O.
    Qed.
  End Again.
End Graph.

(** * Part of a graph *)
Lemma built_filter d g p : built (filter d g) p -> built g p.
Proof. intros (s & I & O). apply filter_In in I as [I _]. exists s. auto. Qed.
Lemma once_filter d g : NoDup (flat_map outs g) -> NoDup (flat_map outs (filter d g)).
Proof.
  induction g as [|x l IH]; [auto|]. cbn [flat_map filter]. intros N.
  assert (N2 : NoDup (flat_map outs l)) by (clear - N; induction (outs x) as [|a o IHo]; [exact N|]; apply IHo; inversion N; assumption).
  destruct (d x); [|auto]. cbn [flat_map]. specialize (IH N2). clear N2. revert N. induction (outs x) as [|a o IHo]; [auto|]. cbn [app]. intros N.
  inversion N as [|? ? N1 N3]; subst. constructor; [|auto]. rewrite in_app_iff in *. intros [K|K]; [tauto|]. apply N1. right.
  apply in_flat_map in K as (s & I & O). apply filter_In in I as [I _]. apply in_flat_map. eauto.
Qed.
(** Running only the statements of [d] arrives at what running everything gives. *)
Lemma consistent_filter {V} g rds (run : stmt -> list (option V) -> string -> V) f F d (h : string -> option V) :
  consistent g rds run f F -> (forall p, ~ built g p -> h p = f p) -> (forall s p, In s g -> d s = false -> In p (outs s) -> h p = F p) ->
  consistent (filter d g) rds run h F.
Proof.
  intros [A B] H1 H2. split.
  - intros p N. destruct (in_dec string_dec p (flat_map outs g)) as [I|I].
    + apply in_flat_map in I as (s & Is & Os). symmetry. apply (H2 s p Is); [|exact Os]. destruct (d s) eqn:E; [|reflexivity].
      exfalso. apply N. exists s. split; [apply filter_In; auto|exact Os].
    + assert (N' : ~ built g p) by (intros (s & Is & Os); apply I, in_flat_map; eauto). rewrite (A p N'), (H1 p N'). reflexivity.
  - intros s p Is Os. apply filter_In in Is as [Is _]. apply B; assumption.
Qed.
