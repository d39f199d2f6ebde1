(** C87: pretty-printed statistics. *)
From Coq Require Import QArith Lqa.
From Verif Require Import Base LayoutModel LayoutSpec LayoutProofs WriterModel WriterSpec WriterProofs StatsModel StatsSpec CarpalxModel CarpalxSpec CarpalxQ.
From Verif Require Import DataLayouts DataFingermap ShippedProofs StatsProofs StatsAll CarpalxShipped OptModel OptEnergy TextModel FilterModel PlotModel PlotSpec PlotProofs PropsTools.
From Verif Require Import DataModels PropsWriter PrettyModel.
From Verif Require PropsPage PropsCarpalx MergeProofs.
Close Scope Q_scope.
Close Scope Z_scope.
Open Scope string_scope.
Open Scope list_scope.
Unset Implicit Arguments.

(** Percentage of [v] in [total] *)
Definition part (v total : Z) : Q := (inject_Z v / inject_Z total * 100)%Q.
(** From rare to frequent; what is as frequent as another keeps its order *)
Definition ascending {K} (d rows : list (K * Z)) : Prop := sorting (fun a b => (snd a <=? snd b)%Z) d rows.
Definition by_run (d rows : list (nat * Z)) : Prop := sorting (fun a b => (fst a <=? fst b)%nat) d rows.
(** Each item where it occurs first *)
Fixpoint firsts (l : list nat) : list nat :=
  match l with [] => [] | x :: l' => x :: filter (fun y => negb (Nat.eqb x y)) (firsts l') end.
(** Runs of this length, of both hands *)
Definition runs_of (d : list (direction * list (nat * Z))) (n : nat) : Z := sumZ (fun hd => amount (Nat.eqb n) (snd hd)) d.

Lemma gthen_None {A} (a b : gen A) r : gthen a b = (r, None) <-> exists x y, a = (x, None) /\ b = (y, None) /\ r = x ++ y.
Proof.
  destruct a as [x [e|]], b as [y f]; unfold gthen; cbn [fst snd]; split.
  - discriminate 1.
  - intros (x' & y' & H & _). discriminate H.
  - intros [= <- ->]. eauto.
  - intros (x' & y' & [= ->] & [= -> ->] & ->). reflexivity.
Qed.
Lemma gfor_None {A B} (f : A -> res B) l r : gfor f l = (r, None) <-> mapM f l = Ok r.
Proof.
  revert r. induction l as [|x l IH]; intros r; cbn [gfor mapM]; [split; intros [= <-]; reflexivity|].
  destruct (f x) as [y|e]; cbn [bind]; [|split; discriminate 1]. rewrite gthen_None. split.
  - intros (a & b & [= <-] & H & ->). apply IH in H. rewrite H. reflexivity.
  - destruct (mapM f l) as [ys|e]; cbn [bind]; [|discriminate 1]. intros [= <-]. exists [y], ys. split; [reflexivity|]. split; [apply IH; reflexivity|reflexivity].
Qed.
Lemma mapM_rows {K} (f : K * Z -> Q -> line) l T r : mapM (fun kv => do p <- percentage (snd kv) T; Ok (f kv p)) l = Ok r ->
  r = map (fun kv => f kv (part (snd kv) T)) l /\ (l <> [] -> T <> 0%Z).
Proof.
  intros E. apply mapM_Ok_inv in E. induction E as [|kv y l r H F IH]; [split; [reflexivity|intros []; reflexivity]|].
  apply bind_inv in H as (p & Hp & [= <-]). unfold percentage in Hp. apply bind_inv in Hp as (q & Hq & [= <-]). apply truediv_Ok in Hq as [Nz ->].
  destruct IH as [-> _]. split; [reflexivity|]. intros _. exact Nz.
Qed.
Lemma mapM_rows_ok {K} (f : K * Z -> Q -> line) l T : T <> 0%Z \/ l = [] -> exists r, mapM (fun kv => do p <- percentage (snd kv) T; Ok (f kv p)) l = Ok r.
Proof.
  intros [N| ->]; [|eexists; reflexivity]. induction l as [|kv l [r IH]]; [eexists; reflexivity|]. cbn [mapM]. unfold percentage at 1. rewrite truediv_ok by exact N.
  cbn [bind]. rewrite IH. eexists. reflexivity.
Qed.
Lemma by_count_ok {K} (d : list (K * Z)) : ascending d (by_count d).
Proof. apply sorted_by_ok; [apply leb_by_total|apply leb_by_trans]. Qed.
Lemma by_length_ok (d : list (nat * Z)) : by_run d (by_length d).
Proof.
  apply sorted_by_ok.
  - intros x y. destruct (Nat.leb_spec (fst x) (fst y)); [left; reflexivity|right; apply Nat.leb_le; lia].
  - intros x y z H1 H2. apply Nat.leb_le in H1, H2. apply Nat.leb_le. lia.
Qed.

(** * What is printed *)
Section Output.
  Variable disp : text -> res text.
  Variable L : layout.
  Variable m : model Qnum.
  (** A combination with rank and text: the most frequent one, at the end, is number 1. *)
  Definition comb_rows (d : list (comb * Z)) (rows : list (Z * text * (comb * Z))) : Prop :=
    ascending d (map snd rows) /\
    forall i rank t kv, nth_error rows i = Some (rank, t, kv) ->
      (rank = Z.of_nat (List.length d) - Z.of_nat i)%Z /\ exists t0, getText L (fst kv) = Ok (CText t0) /\ disp t0 = Ok t.
  (** Both hands together: every length of runs that occurred, in the order in which
      lengths were printed first, with the runs of both hands *)
  Definition combined_rows (d printed : list (direction * list (nat * Z))) (rows : list (nat * Z)) : Prop :=
    dkeys rows = firsts (flat_map (fun hd => map fst (snd hd)) printed) /\
    forall n v, In (n, v) rows -> v = runs_of d n.

  Lemma add_runs_spec dist : forall c ns, NoDup (dkeys c) ->
    dkeys c = firsts ns -> dkeys (add_runs c dist) = firsts (ns ++ map fst (by_length dist)) /\ NoDup (dkeys (add_runs c dist)) /\
    forall n, dget0 (add_runs c dist) n = (dget0 c n + amount (Nat.eqb n) dist)%Z.
  Proof.
    intros c ns. unfold add_runs.
    assert (Am : forall n, amount (Nat.eqb n) (by_length dist) = amount (Nat.eqb n) dist).
    { intros n. destruct (by_length_ok dist) as [P _]. unfold amount. induction P; cbn; try fold (sumZ (fun kv : nat * Z => if Nat.eqb n (fst kv) then snd kv else 0%Z) l);
        try fold (sumZ (fun kv : nat * Z => if Nat.eqb n (fst kv) then snd kv else 0%Z) l'); lia. }
    assert (Fs : forall ms x, firsts (ms ++ [x]) = if mem x ms then firsts ms else firsts ms ++ [x]).
    { clear. induction ms as [|y ms IH]; intros x; cbn [app firsts mem existsb]; [reflexivity|]. fold (mem x ms). rewrite IH.
      assert (Ex : eqb x y = Nat.eqb y x) by (destruct (eqb_spec x y) as [->|N]; [symmetry; apply Nat.eqb_refl|symmetry; apply Nat.eqb_neq; congruence]).
      rewrite Ex. destruct (mem x ms); [rewrite orb_true_r; reflexivity|]. rewrite orb_false_r, filter_app. cbn [filter].
      destruct (Nat.eqb y x); cbn [negb]; [rewrite app_nil_r; reflexivity|reflexivity]. }
    assert (Fi : forall ms x, In x (firsts ms) <-> In x ms).
    { clear. induction ms as [|y ms IH]; intros x; cbn [firsts In]; [reflexivity|]. rewrite filter_In, IH. destruct (Nat.eqb_spec y x) as [->|N]; cbn [negb]; intuition congruence. }
    assert (G : forall l c ns, NoDup (dkeys c) -> dkeys c = firsts ns ->
      dkeys (fold_left (fun d kv => cadd d (fst kv) (snd kv)) l c) = firsts (ns ++ map fst l) /\
      NoDup (dkeys (fold_left (fun d kv => cadd d (fst kv) (snd kv)) l c)) /\
      forall n, dget0 (fold_left (fun d kv => cadd d (fst kv) (snd kv)) l c) n = (dget0 c n + amount (Nat.eqb n) l)%Z).
    { clear Am. induction l as [|kv l IH]; intros c' ns' Nd Hk; cbn [fold_left map].
      - rewrite app_nil_r. split; [exact Hk|]. split; [exact Nd|]. intros n. unfold amount. cbn. lia.
      - assert (Hk' : dkeys (cadd c' (fst kv) (snd kv)) = firsts (ns' ++ [fst kv])).
        { rewrite Fs. unfold cadd. assert (M : mem (fst kv) ns' = dhas c' (fst kv)).
          { unfold dhas. destruct (dget c' (fst kv)) eqn:E.
            - apply mem_In, Fi. rewrite <- Hk. apply dget_key. eauto.
            - destruct (mem (fst kv) ns') eqn:M; [|reflexivity]. apply mem_In, Fi in M. rewrite <- Hk in M. apply dget_key in M as [v M]. congruence. }
          rewrite M, <- Hk. clear. generalize (dget0 c' (fst kv) + snd kv)%Z. intros z. unfold dhas. induction c' as [|[k v] c IHc]; [reflexivity|].
          cbn [dset dget dkeys map fst]. destruct (eqb (fst kv) k); [reflexivity|]. cbn [dkeys map fst]. unfold dkeys in IHc. rewrite IHc.
          destruct (dget c (fst kv)); reflexivity. }
        assert (Nd' : NoDup (dkeys (cadd c' (fst kv) (snd kv)))).
        { rewrite Hk'. clear. generalize (ns' ++ [fst kv]). intros l. induction l as [|x l IH]; cbn [firsts]; constructor.
          - rewrite filter_In. intros [_ H]. rewrite Nat.eqb_refl in H. discriminate H.
          - apply NoDup_filter, IH. }
        destruct (IH _ _ Nd' Hk') as (E1 & E2 & E3). rewrite <- app_assoc in E1. split; [exact E1|]. split; [exact E2|].
        intros n. rewrite E3, dget0_cadd, amount_cons. assert (Ex : eqb n (fst kv) = Nat.eqb n (fst kv)).
        { destruct (eqb_spec n (fst kv)) as [->|N]; [symmetry; apply Nat.eqb_refl|symmetry; apply Nat.eqb_neq; congruence]. }
        rewrite Ex. lia. }
    intros Nd Hk. destruct (G (by_length dist) c ns Nd Hk) as (E1 & E2 & E3). split; [exact E1|]. split; [exact E2|]. intros n. rewrite E3, Am. reflexivity.
  Qed.
  Definition sorted_runs (d : list (direction * list (nat * Z))) := map (fun hd => (fst hd, by_length (snd hd))) d.
  Lemma combined_ok d : combined_rows d (sorted_runs d) (fold_left (fun c hd => add_runs c (snd hd)) d []).
  Proof.
    assert (G : forall d c ns, NoDup (dkeys c) -> dkeys c = firsts ns ->
      dkeys (fold_left (fun c hd => add_runs c (snd hd)) d c) = firsts (ns ++ flat_map (fun hd : direction * list (nat * Z) => map fst (by_length (snd hd))) d) /\
      NoDup (dkeys (fold_left (fun c hd => add_runs c (snd hd)) d c)) /\
      forall n, dget0 (fold_left (fun c (hd : direction * list (nat * Z)) => add_runs c (snd hd)) d c) n = (dget0 c n + runs_of d n)%Z).
    { clear. induction d as [|hd d IH]; intros c ns Nd Hk; cbn [fold_left flat_map].
      - rewrite app_nil_r. split; [exact Hk|]. split; [exact Nd|]. intros n. unfold runs_of. cbn. lia.
      - destruct (add_runs_spec (snd hd) c ns Nd Hk) as (E1 & E2 & E3). destruct (IH _ _ E2 E1) as (F1 & F2 & F3).
        rewrite <- app_assoc in F1. split; [exact F1|]. split; [exact F2|]. intros n. rewrite F3, E3. unfold runs_of. rewrite sumZ_cons. lia. }
    destruct (G d [] [] (NoDup_nil _) eq_refl) as (E1 & E2 & E3). split; [unfold sorted_runs; rewrite flat_map_concat_map, map_map, <- flat_map_concat_map; exact E1|]. intros n v I.
    apply dget_In_iff in I; [|exact E2]. specialize (E3 n). unfold dget0 in E3 at 1. rewrite I in E3. cbn in E3. lia.
  Qed.

  Definition button_row T (kv : string * Z) := Button (fst kv) (snd kv) (part (snd kv) T).
  Definition comb_row T (r : Z * text * (comb * Z)) := let '(rank, t, (k, v)) := r in Combination rank t k v (part v T).
  Definition run_row T (kv : nat * Z) := Run (fst kv) (snd kv) (part (snd kv) T).
  Definition word_row T (kv : text * Z) := Word (fst kv) (part (snd kv) T) (snd kv).
  (** The lines printed for statistics [s] *)
  Definition printed_counts (s : allstats) (lines : list line) : Prop :=
    exists bs cs us hs rs ts ws,
      let buttons := s_buttons (a_simple s) in let combs := s_combs (a_simple s) in let words := w_words (a_words s) in
      let triads := t_triads (a_triads s) in
      lines = [Presses (sumZ snd buttons)] ++ map (button_row (sumZ snd buttons)) bs ++
              [Combinations (sumZ snd combs)] ++ map (comb_row (sumZ snd combs)) cs ++
              [Unknowns] ++ map (fun kv => Unknown (fst kv) (snd kv)) us ++
              flat_map (fun hd => Hand (fst hd) :: map (run_row (sumZ snd (snd hd))) (snd hd)) hs ++
              [Combined] ++ map (run_row (sumZ snd rs)) rs ++
              [Triads] ++ map (fun kv => Triad (fst kv) (snd kv)) ts ++
              [Words (sumZ snd words)] ++ map (word_row (sumZ snd words)) ws /\
      ascending buttons bs /\ comb_rows combs cs /\ ascending (s_unknown (a_simple s)) us /\
      Forall2 (fun hd hd' => fst hd' = fst hd /\ by_run (snd hd) (snd hd')) (r_hand (a_runlen s)) hs /\
      combined_rows (r_hand (a_runlen s)) hs rs /\
      ascending triads ts /\ ascending words ws.
  (** followed by the mean effort of all triads *)
  Definition printed (s : allstats) (lines : list line) : Prop :=
    exists counts e, lines = counts ++ [TotalEffort e] /\ printed_counts s counts /\
      (e == mean scoreQ m (map (fun tv => (fst tv, inject_Z (snd tv))) (t_triads (a_triads s))))%Q.

  Lemma sumZ_perm {K} (l l' : list (K * Z)) : Permutation l l' -> sumZ snd l = sumZ snd l'.
  Proof. intros P. induction P; cbn; try fold (sumZ (@snd K Z) l); try fold (sumZ (@snd K Z) l'); lia. Qed.
  Lemma pretty_combs_None d r : pretty_combs disp L d = (r, None) ->
    exists cs, comb_rows d cs /\ r = Combinations (sumZ snd d) :: map (comb_row (sumZ snd d)) cs.
  Proof.
    unfold pretty_combs. rewrite zsum_dvals. intros E. apply gthen_None in E as (x & y & [= <-] & E & ->). apply gfor_None in E. apply mapM_Ok_inv in E.
    assert (G : forall l i y, Forall2 (fun (ikv : nat * (comb * Z)) (y : line) => (let '(i, (k, v)) := ikv in
               do c <- getText L k; do t <- match c with CText t => disp t | COther => Raise TypeError end;
               do p <- percentage v (sumZ snd d); Ok (Combination (Z.of_nat (List.length d) - Z.of_nat i) t k v p)) = Ok y)
               (List.combine (seq i (List.length l)) l) y ->
      exists cs, map snd cs = l /\ y = map (comb_row (sumZ snd d)) cs /\
        forall j rank t kv, nth_error cs j = Some (rank, t, kv) -> (rank = Z.of_nat (List.length d) - Z.of_nat (i + j))%Z /\ exists t0, getText L (fst kv) = Ok (CText t0) /\ disp t0 = Ok t).
    { clear. induction l as [|[k v] l IH]; intros i y F; cbn [List.length seq List.combine] in F; inversion F as [|? y0 ? ys H F']; subst; clear F.
      - exists []. split; [reflexivity|]. split; [reflexivity|]. intros [|j]; discriminate.
      - apply bind_inv in H as (c & Hc & H). apply bind_inv in H as (t & Ht & H). apply bind_inv in H as (p & Hp & [= <-]).
        unfold percentage in Hp. apply bind_inv in Hp as (q & Hq & [= <-]). apply truediv_Ok in Hq as [Nz ->]. destruct c as [t0|]; [|discriminate Ht].
        destruct (IH _ _ F') as (cs & E1 & -> & E3). exists ((Z.of_nat (List.length d) - Z.of_nat i, t, (k, v))%Z :: cs).
        split; [cbn; rewrite E1; reflexivity|]. split; [reflexivity|]. intros [|j] rank t' kv; cbn [nth_error].
        + intros [= <- <- <-]. rewrite Nat.add_0_r. split; [reflexivity|]. exists t0. split; assumption.
        + intros H. apply E3 in H. replace (i + S j) with (S i + j) by lia. exact H. }
    replace (seq 0 (List.length d)) with (seq 0 (List.length (by_count d))) in E by (f_equal; apply Permutation_length, by_count_ok).
    destruct (G _ _ _ E) as (cs & E1 & -> & E3). exists cs. split; [|reflexivity]. split; [rewrite E1; apply by_count_ok|exact E3].
  Qed.
  Lemma pretty_hands_None d r : fold_right (fun hd rest => gthen (pretty_hand (fst hd) (snd hd)) rest) ([], None) d = (r, None) ->
    r = flat_map (fun hd => Hand (fst hd) :: map (run_row (sumZ snd (snd hd))) (snd hd)) (sorted_runs d).
  Proof.
    revert r. induction d as [|hd d IH]; intros r; cbn [fold_right sorted_runs map flat_map]; [intros [= <-]; reflexivity|].
    intros E. apply gthen_None in E as (x & y & E1 & E2 & ->). apply IH in E2. subst y. f_equal. unfold pretty_hand in E1.
    apply gthen_None in E1 as (a & b & [= <-] & E1 & ->). rewrite zsum_dvals in E1. apply gfor_None in E1.
    apply (mapM_rows (fun kv p => Run (fst kv) (snd kv) p)) in E1 as [-> _]. cbn [fst snd app]. rewrite (sumZ_perm (by_length (snd hd)) (snd hd)) by apply by_length_ok. reflexivity.
  Qed.
  Lemma sorted_runs_ok d : Forall2 (fun hd hd' => fst hd' = fst hd /\ by_run (snd hd) (snd hd')) d (sorted_runs d).
  Proof. induction d as [|hd d IH]; constructor; [|exact IH]. split; [reflexivity|apply by_length_ok]. Qed.
  Lemma racc_many_Ok ts (o o' : robj Qnum) : racc_many ts o = (o', Ok tt) -> enter_many scoreQ (rmodel o) [] ts = ts /\ forall t n, In (t, n) ts -> exists e, triadCompute (rmodel o) t = Ok e.
  Proof.
    assert (G : forall ts o l, snd (racc_many ts o) = Ok tt -> enter_many scoreQ (rmodel o) l ts = l ++ ts /\ forall t n, In (t, n) ts -> exists e, triadCompute (rmodel o) t = Ok e).
    { clear. induction ts as [|[t n] ts IH]; intros o l; cbn [racc_many enter_many]; [rewrite app_nil_r; intros _; split; [reflexivity|intros ? ? []]|].
      unfold racc, scoreQ. destruct (triadCompute (rmodel o) t) as [e|e] eqn:Et; cbn [snd]; [|discriminate 1]. intros H.
      apply (IH _ (l ++ [(t, n)])) in H. cbn [rmodel] in H. rewrite <- app_assoc in H. split; [apply H|].
      intros t' n' [[= <- <-]|I]; [eauto|eapply H, I]. }
    intros E. apply (G ts o []). rewrite E. reflexivity.
  Qed.
  Lemma racc_many_scored ts (o : robj Qnum) : (forall t n, In (t, n) ts -> exists e, triadCompute (rmodel o) t = Ok e) -> snd (racc_many ts o) = Ok tt.
  Proof.
    revert o. induction ts as [|[t n] ts IH]; intros o H; cbn [racc_many]; [reflexivity|]. unfold racc.
    destruct (H t n (or_introl eq_refl)) as [e ->]. apply IH. cbn [rmodel]. intros t' n' I. apply (H t' n'). right. exact I.
  Qed.
  Lemma effort_mean (ts : list (triad * Q)) (m0 : model Qnum) (o : robj Qnum) : @racc_many Qnum ts (@mkR Qnum m0 0%Q 0%Q) = (o, Ok tt) -> (rcount o == weight ts)%Q /\ (rabs o == total scoreQ m0 ts)%Q.
  Proof.
    intros Er. destruct (racc_many_Ok _ _ _ Er) as [En _]. cbn [rmodel] in En.
    assert (B0 : books (@mkR Qnum m0 0%Q 0%Q) (m0, [])) by (split; [reflexivity|split; reflexivity]).
    pose proof (racc_many_books ts _ _ B0) as B. rewrite Er in B. cbn [fst snd] in B. rewrite En in B. destruct B as (_ & B). exact B.
  Qed.
  Lemma gthen_assoc {A} (a b c : gen A) : gthen a (gthen b c) = gthen (gthen a b) c.
  Proof. destruct a as [x [e|]], b as [y [f|]], c as [z g]; unfold gthen; cbn [fst snd]; rewrite ?app_assoc; reflexivity. Qed.
  Definition front (s : allstats) : gen line :=
    gthen (pretty_buttons (s_buttons (a_simple s))) (gthen (pretty_combs disp L (s_combs (a_simple s))) (gthen (pretty_unknown (s_unknown (a_simple s)))
    (gthen (pretty_runs (r_hand (a_runlen s))) (gthen (pretty_triads (t_triads (a_triads s))) (pretty_words (w_words (a_words s))))))).
  Lemma pretty_front s : pretty disp L m s = gthen (front s) (pretty_effort m (t_triads (a_triads s))).
  Proof. unfold pretty, front. rewrite !gthen_assoc. reflexivity. Qed.
  Lemma front_None s lines : front s = (lines, None) -> printed_counts s lines.
  Proof.
    unfold front. intros E.
    apply gthen_None in E as (p1 & q1 & E1 & E & ->). apply gthen_None in E as (p2 & q2 & E2 & E & ->). apply gthen_None in E as (p3 & q3 & E3 & E & ->).
    apply gthen_None in E as (p4 & q4 & E4 & E & ->). apply gthen_None in E as (p5 & p6 & E5 & E6 & ->).
    unfold pretty_buttons in E1. apply gthen_None in E1 as (a1 & b1 & [= <-] & E1 & ->). apply gfor_None in E1. rewrite zsum_dvals in E1.
    apply (mapM_rows (fun kv p => Button (fst kv) (snd kv) p)) in E1 as [-> _].
    apply pretty_combs_None in E2 as (cs & Hcs & ->).
    unfold pretty_unknown in E3. apply gthen_None in E3 as (a3 & b3 & [= <-] & E3 & ->). apply gfor_None in E3.
    unfold pretty_runs in E4. cbv zeta in E4. apply gthen_None in E4 as (a4 & b4 & E4 & E4' & ->). apply gthen_None in E4' as (a4' & b4' & [= <-] & E4' & ->).
    apply gfor_None in E4'. rewrite zsum_dvals in E4'. apply (mapM_rows (fun kv p => Run (fst kv) (snd kv) p)) in E4' as [-> _]. apply pretty_hands_None in E4. subst a4.
    unfold pretty_triads in E5. apply gthen_None in E5 as (a5 & b5 & [= <-] & E5 & ->). apply gfor_None in E5.
    unfold pretty_words in E6. apply gthen_None in E6 as (a6 & b6 & [= <-] & E6 & ->). apply gfor_None in E6. rewrite zsum_dvals in E6.
    apply (mapM_rows (fun kv p => Word (fst kv) p (snd kv))) in E6 as [-> _]. rewrite !zsum_dvals.
    assert (Mm : forall (K : Type) (f : K -> line) l r, mapM (fun kv => Ok (f kv)) l = Ok r -> r = map f l).
    { clear. intros K f l r E. apply mapM_Ok_inv in E. induction E as [|x y l r [= <-] _ IH]; [reflexivity|]. cbn. rewrite IH. reflexivity. }
    apply Mm in E3, E5. subst b3 b5.
    exists (by_count (s_buttons (a_simple s))), cs, (by_count (s_unknown (a_simple s))), (sorted_runs (r_hand (a_runlen s))), (fold_left (fun c hd => add_runs c (snd hd)) (r_hand (a_runlen s)) []),
      (by_count (t_triads (a_triads s))), (by_count (w_words (a_words s))). cbv zeta.
    split; [rewrite <- !app_assoc; reflexivity|]. split; [apply by_count_ok|]. split; [exact Hcs|]. split; [apply by_count_ok|]. split; [apply sorted_runs_ok|].
    split; [apply combined_ok|]. split; apply by_count_ok.
  Qed.
  Lemma effort_None d r : pretty_effort m d = (r, None) ->
    (exists e, r = [TotalEffort e] /\ (e == mean scoreQ m (map (fun tv => (fst tv, inject_Z (snd tv))) d))%Q) /\ forall tr, In tr (dkeys d) -> exists e, triadCompute m tr = Ok e.
  Proof.
    unfold pretty_effort. destruct (initCheck m); [|discriminate 1]. destruct (racc_many _ _) as [o [[]|]] eqn:Er; [|discriminate 1]. intros [= <-]. split.
    - eexists. split; [reflexivity|]. destruct (effort_mean _ _ _ Er) as [B2 B3]. unfold reffort. exact (mean_alt m _ (rcount o) (rabs o) B2 B3).
    - apply racc_many_Ok in Er as [_ H]. cbn [rmodel] in H. intros tr I. apply in_map_iff in I as ([t v] & <- & I).
      apply (H t (inject_Z v)). apply in_map_iff. exists (t, v). split; [reflexivity|exact I].
  Qed.
  (** If nothing fails, exactly this is printed: the totals, each dictionary in its order,
      percentages of the totals, and the effort of all triads. *)
  Theorem C87_printed s lines : pretty disp L m s = (lines, None) -> printed s lines.
  Proof.
    rewrite pretty_front. intros E. apply gthen_None in E as (x & y & E1 & E2 & ->). apply effort_None in E2 as [(e & -> & He) _].
    exists x, e. split; [reflexivity|]. split; [apply front_None, E1|exact He].
  Qed.
  (** A hand's runs, words and so on can be shown in percent: *)
  Definition countable (s : allstats) : Prop :=
    all_counts (fun v => 0 < v)%Z (s_buttons (a_simple s)) /\ all_counts (fun v => 0 < v)%Z (s_combs (a_simple s)) /\
    Forall (fun hd => all_counts (fun v => 0 < v)%Z (snd hd)) (r_hand (a_runlen s)) /\ all_counts (fun v => 0 < v)%Z (w_words (a_words s)).
  Lemma positive_total {K} (d : list (K * Z)) : all_counts (fun v => 0 < v)%Z d -> sumZ snd d <> 0%Z \/ d = [].
  Proof.
    intros H. destruct d as [|kv d]; [right; reflexivity|left]. inversion H as [|? ? H1 H2]; subst. rewrite sumZ_cons.
    assert (0 <= sumZ snd d)%Z; [|lia]. clear -H2. induction H2 as [|x d Hx _ IH]; [cbn; lia|]. rewrite sumZ_cons. lia.
  Qed.
  Lemma by_count_nil {K} : @by_count K [] = []. Proof. reflexivity. Qed.
  Lemma hands_ok d : Forall (fun hd : direction * list (nat * Z) => all_counts (fun v => 0 < v)%Z (snd hd)) d ->
    exists r, fold_right (fun hd rest => gthen (pretty_hand (fst hd) (snd hd)) rest) ([], None) d = (r, None).
  Proof.
    induction 1 as [|hd d Hp _ [r IH]]; [eexists; reflexivity|]. cbn [fold_right]. rewrite IH.
    destruct (mapM_rows_ok (fun kv p => Run (fst kv) (snd kv) p) (by_length (snd hd)) (sumZ snd (snd hd))) as [y Ey].
    { destruct (positive_total _ Hp) as [N| ->]; [left; exact N|right; reflexivity]. }
    eexists. apply gthen_None. exists (Hand (fst hd) :: y), r. split; [|split; reflexivity]. unfold pretty_hand. rewrite zsum_dvals.
    apply gthen_None. exists [Hand (fst hd)], y. split; [reflexivity|]. split; [apply gfor_None, Ey|reflexivity].
  Qed.
  Lemma runs_positive d : Forall (fun hd : direction * list (nat * Z) => all_counts (fun v => 0 < v)%Z (snd hd)) d ->
    all_counts (fun v => 0 < v)%Z (fold_left (fun c hd => add_runs c (snd hd)) d []).
  Proof.
    assert (A : forall c k v, all_counts (fun v => 0 < v)%Z c -> (0 < v)%Z -> all_counts (fun v => 0 < v)%Z (@cadd nat _ c k v)).
    { clear. intros c k v Hc Hv. unfold cadd. assert (0 < dget0 c k + v)%Z as Hz.
      { unfold dget0. destruct (dget c k) eqn:E; [|lia]. apply dget_In in E. unfold all_counts in Hc. rewrite Forall_forall in Hc. specialize (Hc _ E). cbn in Hc. lia. }
      revert Hz. generalize (dget0 c k + v)%Z. intros z Hz. unfold all_counts in *. induction Hc as [|[k' v'] c H Hc IH]; cbn [dset]; [constructor; [exact Hz|constructor]|].
      destruct (eqb k k'); constructor; auto. }
    assert (B : forall l c, all_counts (fun v => 0 < v)%Z l -> all_counts (fun v => 0 < v)%Z c -> all_counts (fun v => 0 < v)%Z (fold_left (fun d kv => @cadd nat _ d (fst kv) (snd kv)) l c)).
    { clear -A. induction l as [|kv l IH]; intros c Hl Hc; cbn [fold_left]; [exact Hc|]. inversion Hl; subst. apply IH; [assumption|]. apply A; assumption. }
    assert (G : forall d c, all_counts (fun v => 0 < v)%Z c -> Forall (fun hd : direction * list (nat * Z) => all_counts (fun v => 0 < v)%Z (snd hd)) d ->
      all_counts (fun v => 0 < v)%Z (fold_left (fun c hd => add_runs c (snd hd)) d c)).
    { clear -B. induction d as [|hd d IH]; intros c Hc Hd; cbn [fold_left]; [exact Hc|]. inversion Hd; subst. apply IH; [|assumption].
      apply B; [|exact Hc]. eapply Permutation_Forall; [symmetry; apply by_length_ok|assumption]. }
    intros H. apply G; [constructor|exact H].
  Qed.
  Definition displayable (s : allstats) : Prop := forall k, In k (dkeys (s_combs (a_simple s))) -> exists t t', getText L k = Ok (CText t) /\ disp t = Ok t'.
  Lemma front_ok s : countable s -> displayable s -> exists lines, front s = (lines, None).
  Proof.
    intros (Pb & Pc & Ph & Pw) Hc.
      assert (E1 : exists r, pretty_buttons (s_buttons (a_simple s)) = (r, None)).
      { unfold pretty_buttons. rewrite zsum_dvals. destruct (mapM_rows_ok (fun kv p => Button (fst kv) (snd kv) p) (by_count (s_buttons (a_simple s))) (sumZ snd (s_buttons (a_simple s)))) as [y Ey].
        { destruct (positive_total _ Pb) as [N| ->]; [left; exact N|right; reflexivity]. }
        eexists. apply gthen_None. exists [Presses (sumZ snd (s_buttons (a_simple s)))], y. split; [reflexivity|]. split; [apply gfor_None, Ey|reflexivity]. }
      assert (E2 : exists r, pretty_combs disp L (s_combs (a_simple s)) = (r, None)).
      { unfold displayable in Hc. unfold pretty_combs. set (d := s_combs (a_simple s)) in *. rewrite zsum_dvals. 
        assert (Hf : forall ikv, In ikv (List.combine (seq 0 (List.length d)) (by_count d)) -> exists y, (let '(i, (k, v)) := ikv in
               do c <- getText L k; do t <- match c with CText t => disp t | COther => Raise TypeError end;
               do p <- percentage v (sumZ snd d); Ok (Combination (Z.of_nat (List.length d) - Z.of_nat i) t k v p)) = Ok y).
        { intros [i [k v]] I. apply in_combine_r in I. apply (Permutation_in _ (proj1 (by_count_ok d))) in I.
          destruct (Hc k) as (t & t' & -> & Et); [apply (in_map fst _ _ I)|]. cbn [bind]. rewrite Et. cbn [bind]. unfold percentage.
          rewrite truediv_ok; [eexists; reflexivity|]. destruct (positive_total d Pc) as [N|N]; [exact N|rewrite N in I; destruct I]. }
        apply PropsPage.mapM_exists in Hf as [y Ey]. eexists. apply gthen_None. exists [Combinations (sumZ snd d)], y. split; [reflexivity|]. split; [apply gfor_None, Ey|reflexivity]. }
      assert (Mm : forall (K : Type) (f : K -> line) l, gfor (fun kv => Ok (f kv)) l = (map f l, None)).
      { clear. intros K f l. apply gfor_None. induction l as [|x l IH]; [reflexivity|]. cbn. rewrite IH. reflexivity. }
      assert (E4 : exists r, pretty_runs (r_hand (a_runlen s)) = (r, None)).
      { unfold pretty_runs. cbv zeta. destruct (hands_ok _ Ph) as [x Ex]. rewrite Ex. pose proof (runs_positive _ Ph) as Pr. set (cmb := fold_left _ _ _) in *.
        rewrite zsum_dvals. destruct (mapM_rows_ok (fun kv p => Run (fst kv) (snd kv) p) cmb (sumZ snd cmb)) as [y Ey].
        { destruct (positive_total _ Pr) as [N| ->]; [left; exact N|right; reflexivity]. }
        eexists. apply gthen_None. exists x, (Combined :: y). split; [reflexivity|]. split; [|reflexivity]. apply gthen_None. exists [Combined], y.
        split; [reflexivity|]. split; [apply gfor_None, Ey|reflexivity]. }
      assert (E6 : exists r, pretty_words (w_words (a_words s)) = (r, None)).
      { unfold pretty_words. rewrite zsum_dvals. destruct (mapM_rows_ok (fun kv p => Word (fst kv) p (snd kv)) (by_count (w_words (a_words s))) (sumZ snd (w_words (a_words s)))) as [y Ey].
        { destruct (positive_total _ Pw) as [N| ->]; [left; exact N|right; reflexivity]. }
        eexists. apply gthen_None. exists [Words (sumZ snd (w_words (a_words s)))], y. split; [reflexivity|]. split; [apply gfor_None, Ey|reflexivity]. }
      destruct E1 as [r1 E1], E2 as [r2 E2], E4 as [r4 E4], E6 as [r6 E6]. unfold front. rewrite E1, E2, E4, E6.
      unfold pretty_unknown, pretty_triads. rewrite (Mm _ (fun kv => Unknown (fst kv) (snd kv))), (Mm _ (fun kv => Triad (fst kv) (snd kv))). eexists. reflexivity.
  Qed.
  (** It works iff every combination recorded types something that can be shown, and every
      triad recorded can be scored. *)
  Theorem C87_works s : countable s -> initCheck m = Ok tt ->
    ((exists lines, pretty disp L m s = (lines, None)) <->
     displayable s /\ (forall tr, In tr (dkeys (t_triads (a_triads s))) -> exists e, triadCompute m tr = Ok e)).
  Proof.
    intros Pos Hi. rewrite pretty_front. split.
    - intros (lines & E). apply gthen_None in E as (x & y & E1 & E2 & _). apply effort_None in E2 as [_ H]. split; [|exact H].
      unfold front in E1. apply gthen_None in E1 as (p1 & q1 & _ & E1 & _). apply gthen_None in E1 as (p2 & q2 & E2 & _ & _).
      apply pretty_combs_None in E2 as (cs & (A & R) & _). intros k I. apply in_map_iff in I as (kv & <- & I).
      destruct A as [P _]. symmetry in P. apply (Permutation_in _ P) in I. apply in_map_iff in I as ([[rank t] kv'] & Ek & I). cbn [snd] in Ek. subst kv'.
      apply In_nth_error in I as [j I]. destruct (R _ _ _ _ I) as (_ & t0 & H1 & H2). eauto.
    - intros (Hc & Ht). destruct (front_ok s Pos Hc) as [x ->].
      assert (E7 : exists r, pretty_effort m (t_triads (a_triads s)) = (r, None)).
      { unfold pretty_effort. rewrite Hi. set (ts := map _ _). destruct (racc_many ts (mkR m 0%Q 0%Q)) as [o r] eqn:Er.
        assert (Hr : r = Ok tt).
        { change r with (snd (o, r)). rewrite <- Er. apply racc_many_scored. cbn [rmodel]. intros t n I. apply in_map_iff in I as ([t' v] & [= <- <-] & I).
          apply Ht, (in_map fst _ _ I). }
        rewrite Hr. eexists. reflexivity. }
      destruct E7 as [r ->]. eexists. reflexivity.
  Qed.
  (** If a triad cannot be scored, everything but the last line is printed before the exception. *)
  Theorem C87_unscored s e : countable s -> displayable s -> initCheck m = Ok tt -> snd (pretty disp L m s) = Some e ->
    printed_counts s (fst (pretty disp L m s)) /\ exists tr, In tr (dkeys (t_triads (a_triads s))) /\ triadCompute m tr = Raise e.
  Proof.
    intros Pos Hc Hi. rewrite pretty_front. destruct (front_ok s Pos Hc) as [x Ex]. rewrite Ex. unfold gthen. cbn [fst snd].
    unfold pretty_effort. rewrite Hi. destruct (racc_many _ _) as [o [[]|e']] eqn:Er; cbn [fst snd]; [discriminate 1|]. intros [= ->]. rewrite app_nil_r.
    split; [apply front_None, Ex|]. assert (G : forall ts (o : robj Qnum), snd (racc_many ts o) = Raise e -> exists t n, In (t, n) ts /\ triadCompute (rmodel o) t = Raise e).
    { clear. induction ts as [|[t n] ts IH]; intros o; cbn [racc_many]; [discriminate 1|]. unfold racc. destruct (triadCompute (rmodel o) t) as [v|e'] eqn:Et; cbn [snd].
      - intros H. apply IH in H as (t' & n' & I & H). exists t', n'. split; [right; exact I|exact H].
      - intros [= ->]. exists t, n. split; [left; reflexivity|exact Et]. }
    apply (f_equal snd) in Er. apply G in Er as (t & n & I & H). apply in_map_iff in I as ([t' v] & [= <- _] & I). exists t'. split; [apply (in_map fst _ _ I)|exact H].
  Qed.
End Output.

(** Percentages of a list add up to 100. *)
Theorem C87_percent {K} (d rows : list (K * Z)) : ascending d rows -> sumZ snd d <> 0%Z ->
  (qsum (fun kv => part (snd kv) (sumZ snd d)) rows == 100)%Q.
Proof.
  intros (P & _) N. unfold part.
  assert (G : forall l : list (K * Z), (qsum (fun kv => inject_Z (snd kv) / inject_Z (sumZ snd d) * 100) l == inject_Z (sumZ snd l) / inject_Z (sumZ snd d) * 100)%Q).
  { intros l. assert (Ni : ~ (inject_Z (sumZ snd d) == 0)%Q) by (intros H; apply N; apply (proj1 (inject_Z_injective _ _)); exact H).
    set (T := inject_Z (sumZ snd d)) in *. clearbody T. induction l as [|kv l IH]; cbn [qsum].
    - change (sumZ snd []) with 0%Z. field. exact Ni.
    - rewrite sumZ_cons, inject_Z_plus, IH. field. exact Ni. }
  rewrite G, (sumZ_perm rows d P). field. intros H. apply N. apply (proj1 (inject_Z_injective _ _)). exact H.
Qed.
(** A combination of rank r: r-1 others are at least as frequent, the remaining ones at
    most as frequent. *)
Theorem C87_rank disp L d rows rank t k v : comb_rows disp L d rows -> In (rank, t, (k, v)) rows ->
  exists before after, map snd rows = before ++ (k, v) :: after /\ Permutation (before ++ (k, v) :: after) d /\
    Z.of_nat (S (List.length after)) = rank /\ Forall (fun kv => snd kv <= v)%Z before /\ Forall (fun kv => v <= snd kv)%Z after.
Proof.
  intros ((P & So & _) & R) I. apply In_nth_error in I as [i I]. destruct (R _ _ _ _ I) as (-> & _).
  apply (f_equal (option_map snd)) in I. cbn [option_map snd] in I. rewrite <- nth_error_map in I. apply nth_error_split in I as (before & after & E & Hl).
  exists before, after. split; [exact E|]. rewrite E in P, So. split; [exact P|].
  split; [apply Permutation_length in P; rewrite app_length in P; cbn [List.length] in P; lia|]. clear -So. induction before as [|x before IH]; cbn [app] in So; inversion So as [|? ? S' F]; subst.
  - split; [constructor|]. eapply Forall_impl; [|exact F]. intros a H. apply Z.leb_le in H. exact H.
  - destruct (IH S') as [A B]. split; [|exact B]. constructor; [|exact A]. rewrite Forall_forall in F. specialize (F (k, v)). apply Z.leb_le, F, in_or_app. right. left. reflexivity.
Qed.
Lemma nth_error_ext {A} (l r : list A) : (forall i, nth_error l i = nth_error r i) -> l = r.
Proof.
  revert r. induction l as [|x l IH]; intros [|y r] H; [reflexivity|specialize (H 0); discriminate H..|].
  pose proof (H 0) as [= ->]. f_equal. apply IH. intros i. exact (H (S i)).
Qed.
(** All combinations have a rank of their own from 1 to their number. *)
Theorem C87_ranks disp L d rows : comb_rows disp L d rows ->
  map (fun r => fst (fst r)) rows = rev (map Z.of_nat (seq 1 (List.length d))).
Proof.
  intros ((P & _) & R). assert (Hl : List.length rows = List.length d) by (rewrite <- (Permutation_length P), map_length; reflexivity).
  apply nth_error_ext. intros i. rewrite nth_error_map. destruct (nth_error rows i) as [[[rank t] kv]|] eqn:E; cbn [option_map].
  - destruct (R _ _ _ _ E) as (-> & _). assert (Hi : i < List.length rows) by (apply nth_error_Some; congruence). cbn [fst].
    assert (G : forall n i, i < n -> nth_error (rev (map Z.of_nat (seq 1 n))) i = Some (Z.of_nat n - Z.of_nat i)%Z).
    { clear. induction n as [|n IH]; intros i Hi; [lia|]. rewrite seq_S, map_app, rev_app_distr. cbn [map rev app]. destruct i as [|i]; cbn [nth_error].
      - rewrite Z.sub_0_r. reflexivity.
      - rewrite IH by lia. f_equal. lia. }
    rewrite G by lia. reflexivity.
  - symmetry. apply nth_error_None. rewrite rev_length, map_length, seq_length. apply nth_error_None in E. lia.
Qed.


(** * Statistics of typed text *)
Lemma count_nonneg {A} `{EqDec A} (x : A) l : (0 <= count x l)%Z.
Proof. induction l as [|y l IH]; cbn; [lia|]. destruct (eqb _ _); lia. Qed.
Lemma expected_nonneg fm letter L ign es x : (0 <= expected fm letter L ign es x)%Z.
Proof.
  assert (P : forall A (e : EqDec A) (f : list comb -> list A) (x : A), (0 <= per_stretch f es x)%Z).
  { intros A e f y. unfold per_stretch. apply sumZ_nonneg. intros s _. apply count_nonneg. }
  destruct x; cbn [expected]; try apply P; [apply PropsPage.presses_nonneg| |]; apply sumZ_nonneg; intros e _; unfold is_press, is_skip; destruct e; try lia; destruct (eqb _ _); lia.
Qed.
Lemma nonzero_pos z v : (0 <= z)%Z -> nonzero z = Some v -> (0 < v)%Z.
Proof. unfold nonzero. destruct (Z.eqb_spec z 0); [discriminate 2|]. intros H [= <-]. lia. Qed.
Section Typed.
  Variables (letter : N -> bool) (d : generic_data) (t : text) (s : allstats).
  Hypothesis Id : In d all_layouts.
  Hypothesis Et : PropsPage.typing letter d t = Ok s.
  Let L := layout_new (shipped_layers d).
  Let es := map ev_obj (fst (fst (type_text defaultFingermap L None t))).
  Lemma typed_recorded : stats_wf s /\ Forall (handled defaultFingermap L) es /\ forall x, recorded s x = nonzero (expected defaultFingermap letter L spaces es x).
  Proof.
    unfold PropsPage.typing in Et. apply bind_inv in Et as (s0 & E0 & E). destruct (C12_shipped _ Id) as (Hok & Hf & Hs). destruct (shipped_facts _ Id) as (A & B & _).
    pose proof (@typed_handled _ _ None t Hok A B Hf) as Hh. split; [|split; [exact Hh|exact (PropsPage.stats_positive _ _ _ _ _ Hh E0 E)]].
    eapply MergeProofs.processed_wf; [|exact E]. apply (@MergeProofs.makeCombined_wf _ _ E0).
  Qed.
  Lemma dict_positive {K} `{EqDec K} (dict : list (K * Z)) (c : K -> counter) : dict_wf dict -> (forall k, recorded s (c k) = dget dict k) -> all_counts (fun v => 0 < v)%Z dict.
  Proof.
    intros W R. destruct typed_recorded as (_ & _ & Rx). apply Forall_forall. intros [k v] I. cbn [snd]. apply dget_In_iff in I; [|exact W].
    rewrite <- R, Rx in I. apply (nonzero_pos _ _ (expected_nonneg _ _ _ _ _ _) I).
  Qed.
  Lemma typed_countable : countable s.
  Proof.
    destruct typed_recorded as (W & _ & Rx). destruct W as (W1 & W2 & _ & [W4 W4'] & _ & _ & W7).
    split; [apply (dict_positive _ CButton W1); reflexivity|]. split; [apply (dict_positive _ CComb W2); reflexivity|].
    split; [|apply (dict_positive _ CWord W7); reflexivity]. apply Forall_forall. intros [h dist] I. rewrite Forall_forall in W4'. specialize (W4' _ I). cbn [snd] in *.
    apply (dict_positive _ (CHand h) W4'). intros n. cbn [recorded]. unfold nlook. apply dget_In_iff in I; [|exact W4]. rewrite I. reflexivity.
  Qed.
  Lemma typed_texts k : In k (dkeys (s_combs (a_simple s))) -> exists u, getText L k = Ok (CText u).
  Proof.
    intros I. destruct typed_recorded as (_ & Hh & Rx). apply dget_key in I as [v I]. specialize (Rx (CComb k)). cbn [recorded expected] in Rx. rewrite I in Rx.
    assert (N : sumZ (is_press k) es <> 0%Z) by (intros X; rewrite X in Rx; discriminate Rx). clear -N Hh.
    induction Hh as [|e es' [_ Ht] _ IH]; [destruct N; reflexivity|]. rewrite sumZ_cons in N. destruct e as [c|ch|]; cbn [is_press typable] in *; [|apply IH; lia..].
    destruct (eqb_spec k c) as [->|_]; [exact Ht|]. apply IH. lia.
  Qed.
End Typed.
Definition showable (disp : text -> res text) (L : layout) : Prop := forall k u, getText L k = Ok (CText u) -> exists u', disp u = Ok u'.
(** Statistics of text typed on a shipped layout are printed with the same layout, if
    its texts can be shown and there was no backspace. *)
Theorem C87_shipped letter d t s disp it : In d all_layouts -> PropsPage.typing letter d t = Ok s ->
  let L := layout_new (shipped_layers d) in showable disp L ->
  (forall c, Permutation (it c) (elems (cmod c) ++ elems (cbtn c))) -> ~ In 8%N t ->
  exists lines, pretty disp L (shipped_model (@mod01 Qnum) it) s = (lines, None) /\ printed disp L (shipped_model (@mod01 Qnum) it) s lines.
Proof.
  intros Id Et L Hd Hit Hb. set (m := shipped_model (@mod01 Qnum) it).
  assert (E : exists lines, pretty disp L m s = (lines, None)).
  { apply C87_works; [exact (typed_countable _ _ _ _ Id Et)|vm_compute; reflexivity|]. split.
    - intros k I. destruct (typed_texts _ _ _ _ Id Et k I) as [u Hu]. destruct (Hd k u Hu) as [u' Hu']. eauto.
    - destruct (PropsCarpalx.C32_scorable_partial (nm := Qnum) d letter None t it Id Hb Hit) as (s0 & s' & E0 & Es & H).
      assert (s' = s) as -> by (unfold PropsPage.typing in Et; rewrite E0 in Et; cbn [bind] in Et; congruence).
      intros tr I. apply (H tr (@mod01 Qnum) I). left. reflexivity. }
  destruct E as [lines E]. exists lines. split; [exact E|]. apply C87_printed, E.
Qed.
(** With backspace too, only the last line can be missing. *)
Theorem C87_shipped_counts letter d t s disp it : In d all_layouts -> PropsPage.typing letter d t = Ok s ->
  let L := layout_new (shipped_layers d) in showable disp L ->
  exists counts, printed_counts disp L s counts /\
    (fst (pretty disp L (shipped_model (@mod01 Qnum) it) s) = counts \/
     exists e, pretty disp L (shipped_model (@mod01 Qnum) it) s = (counts ++ [TotalEffort e], None)).
Proof.
  intros Id Et L Hd. set (m := shipped_model (@mod01 Qnum) it). pose proof (typed_countable _ _ _ _ Id Et) as Pos.
  assert (Hc : displayable disp L s).
  { intros k I. destruct (typed_texts _ _ _ _ Id Et k I) as [u Hu]. destruct (Hd k u Hu) as [u' Hu']. eauto. }
  destruct (pretty disp L m s) as [lines [e|]] eqn:E.
  - destruct (C87_unscored disp L m s e Pos Hc) as [P _]; [vm_compute; reflexivity|rewrite E; reflexivity|]. exists lines. rewrite E in P. split; [exact P|left; reflexivity].
  - destruct (C87_printed _ _ _ _ _ E) as (counts & e & -> & P & _). exists counts. split; [exact P|]. right. eauto.
Qed.
(** It is missing after three backspaces. *)
Theorem C87_needs_no_backspace : exists d t s lines, In d all_layouts /\ PropsPage.typing (fun _ => true) d t = Ok s /\
  pretty (fun u => Ok u) (layout_new (shipped_layers d)) (shipped_model (@mod01 Qnum) comb_iter) s = (lines, Some KeyError).
Proof.
  exists data_ar_lulua, [8; 8; 8]%N. eexists _, _. split; [unfold all_layouts; do 6 right; left; reflexivity|]. split; [vm_compute; reflexivity|]. vm_compute. reflexivity.
Qed.
(** Another layout than the one the text was typed with may not have the combinations. *)
Theorem C87_needs_layout : exists d d' t s lines, In d all_layouts /\ In d' all_layouts /\ PropsPage.typing (fun _ => true) d t = Ok s /\
  pretty (fun u => Ok u) (layout_new (shipped_layers d')) (shipped_model (@mod01 Qnum) comb_iter) s = (lines, Some KeyError).
Proof.
  exists data_ar_lulua, data_null, [0x627]%N. eexists _, _. split; [unfold all_layouts; do 6 right; left; reflexivity|].
  split; [unfold all_layouts; do 12 right; left; reflexivity|]. split; [vm_compute; reflexivity|]. vm_compute. reflexivity.
Qed.
Definition ex_row (l : line) : option (Z * text * Z) := match l with Combination rank t _ v _ => Some (rank, t, v) | Unknown ch v => Some (0%Z, [ch], v) | _ => None end.
Example C87_example : exists s lines, PropsPage.typing (fun _ => true) data_ar_lulua [0x627; 0x644; 0x627; 0x20; 0x644; 65; 0x627]%N = Ok s /\
  pretty (fun u => Ok u) (layout_new (shipped_layers data_ar_lulua)) (shipped_model (@mod01 Qnum) comb_iter) s = (lines, None) /\
  flat_map (fun l => match ex_row l with Some r => [r] | None => [] end) lines = [(3, [0x20%N], 1); (2, [0x644%N], 2); (1, [0x627%N], 3); (0, [65%N], 1)]%Z /\
  List.length lines = 21.
Proof. eexists _, _. split; [vm_compute; reflexivity|]. split; [vm_compute; reflexivity|]. split; vm_compute; reflexivity. Qed.

Print Assumptions C87_printed.
Print Assumptions C87_works.
Print Assumptions C87_unscored.
Print Assumptions C87_percent.
Print Assumptions C87_rank.
Print Assumptions C87_ranks.
Print Assumptions C87_shipped.
Print Assumptions C87_shipped_counts.
Print Assumptions C87_needs_no_backspace.
Print Assumptions C87_needs_layout.
