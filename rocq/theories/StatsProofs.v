From Verif Require Import Base LayoutModel LayoutProofs WriterModel StatsModel StatsSpec.
Set Implicit Arguments.
Open Scope list_scope.

(** * Counters *)
Lemma counts_nil {K} `{EqDec K} : counts (K := K) [] (fun _ => 0%Z).
Proof. split; [constructor|]. intros k. reflexivity. Qed.
Lemma counts_ext {K} `{EqDec K} d (f g : K -> Z) : (forall k, f k = g k) -> counts d f -> counts d g.
Proof. intros E [H1 H2]. split; [exact H1|]. intros k. rewrite <- E. apply H2. Qed.
Lemma counts_cget {K} `{EqDec K} d (f : K -> Z) k : counts d f -> cget d k = f k.
Proof. intros [_ H2]. unfold cget. rewrite H2. destruct (Z.eqb_spec (f k) 0); congruence. Qed.
Lemma counts_cadd {K} `{EqDec K} d (f : K -> Z) k n : (forall k, 0 <= f k)%Z -> (0 < n)%Z -> counts d f ->
  counts (cadd d k n) (fun k' => f k' + if eqb k' k then n else 0)%Z.
Proof.
  intros Hf Hn Hc. split; [apply cadd_wf, Hc|]. intros k'. unfold cadd. rewrite dget_dset, (counts_cget _ Hc).
  specialize (Hf k'). destruct (eqb_spec k' k) as [E|E].
  - rewrite <- E. destruct (Z.eqb_spec (f k' + n) 0); [lia|reflexivity].
  - rewrite Z.add_0_r. apply Hc.
Qed.
Lemma counts_list {K} `{EqDec K} (l : list K) d m : counts d (fun k => count k m) ->
  counts (fold_left cinc l d) (fun k => count k (m ++ l)).
Proof.
  revert d m; induction l as [|x l IH]; intros d m Hc; cbn [fold_left].
  - rewrite app_nil_r. exact Hc.
  - replace (m ++ x :: l) with ((m ++ [x]) ++ l) by (rewrite <- app_assoc; reflexivity). apply IH.
    eapply counts_ext; [|apply counts_cadd; [|apply Z.lt_0_1|exact Hc]]; [|intros k; apply count_nonneg].
    intros k. rewrite count_app. cbn [count]. lia.
Qed.
Lemma counts_inc {K} `{EqDec K} (x : K) d m : counts d (fun k => count k m) -> counts (cinc d x) (fun k => count k (m ++ [x])).
Proof. intros Hc. apply (counts_list [x] m Hc). Qed.
Lemma counts_total {K} `{EqDec K} d (l : list K) : counts d (fun k => count k l) -> ctotal d = Z.of_nat (length l).
Proof.
  revert d; induction l as [|x l IH] using rev_ind; intros d Hc.
  - cbn [count] in Hc. destruct d as [|[k v] d]; [reflexivity|]. destruct Hc as [_ Hc]. specialize (Hc k). cbn in Hc. rewrite eqb_refl in Hc. discriminate.
  - assert (Hx : cget d x = (count x l + 1)%Z).
    { rewrite (counts_cget _ Hc), count_app. cbn [count]. rewrite eqb_refl. lia. }
    pose (d' := if (count x l =? 0)%Z then ddel d x else dset d x (count x l)).
    assert (Hd' : counts d' (fun k => count k l)).
    { destruct Hc as [Hw Hc]. unfold d'. destruct (Z.eqb_spec (count x l) 0) as [E|E].
      - split; [apply ddel_wf, Hw|]. intros k. rewrite dget_ddel by exact Hw. rewrite Hc, count_app. cbn [count].
        destruct (eqb_spec k x) as [Ek|Ek]; [rewrite Ek, E; reflexivity|]. rewrite !Z.add_0_r. reflexivity.
      - split; [apply dset_wf, Hw|]. intros k. rewrite dget_dset, Hc, count_app. cbn [count].
        destruct (eqb_spec k x) as [Ek|Ek]; [rewrite Ek; destruct (Z.eqb_spec (count x l) 0); congruence|]. rewrite !Z.add_0_r. reflexivity. }
    apply IH in Hd'. rewrite app_length. cbn [length]. rewrite Nat2Z.inj_add, <- Hd'. unfold d'.
    destruct (Z.eqb_spec (count x l) 0) as [E|E].
    + assert (T : forall e, ctotal (ddel e x) = (ctotal e - cget e x)%Z).
      { intros e. unfold ctotal, cget, dvals. induction e as [|[a b] e IHe]; cbn; [lia|]. destruct (eqb x a); cbn; lia. }
      rewrite T, Hx. lia.
    + rewrite ctotal_dset, Hx. lia.
Qed.
Lemma count_concat {A B} `{EqDec B} (f : A -> list B) x l : count x (flat_map f l) = sumZ (fun a => count x (f a)) l.
Proof. induction l as [|a l IH]; cbn [flat_map sumZ fold_right]; [reflexivity|]. rewrite count_app, IH. reflexivity. Qed.
Lemma count_NoDup {A} `{EqDec A} (x : A) l : NoDup l -> count x l = if mem x l then 1%Z else 0%Z.
Proof.
  induction 1 as [|y l Hn Hl IH]; cbn [count mem]; [reflexivity|]. rewrite IH.
  destruct (eqb_spec x y) as [E|E]; cbn [orb]; [|lia]. rewrite E. apply mem_nIn in Hn. rewrite Hn. reflexivity.
Qed.

(** * SimpleStats *)
Lemma foldM_snoc {A S} (f : S -> A -> res S) l x s : foldM f (l ++ [x]) s = (do s' <- foldM f l s; f s' x).
Proof. rewrite foldM_app. destruct (foldM f l s); cbn; [|reflexivity]. destruct (f a x); reflexivity. Qed.

Definition ev_buttons (e : sevent) : list string := match e with SComb c => comb_iter c | _ => [] end.
Definition ev_combs (e : sevent) : list comb := match e with SComb c => [c] | _ => [] end.
Definition ev_skips (e : sevent) : list N := match e with SSkip c => [c] | _ => [] end.

Lemma simple_inv es : Forall proper es -> exists s, foldM simple_process es simple_init = Ok s /\
  counts (s_buttons s) (fun k => count k (flat_map ev_buttons es)) /\
  counts (s_combs s) (fun k => count k (flat_map ev_combs es)) /\
  counts (s_unknown s) (fun k => count k (flat_map ev_skips es)).
Proof.
  induction es as [|e es IH] using rev_ind; intros Hp.
  - exists simple_init. repeat split; try constructor; intros; reflexivity.
  - apply Forall_app in Hp as [Hp He]. inversion He as [|? ? He' _]; subst. destruct (IH Hp) as (s & E & H1 & H2 & H3).
    rewrite foldM_snoc, E. cbn [bind]. rewrite !flat_map_app. cbn [flat_map]. rewrite !app_nil_r.
    destruct e as [c|ch|]; [| |exfalso; apply He'; reflexivity]; cbn [simple_process ev_buttons ev_combs ev_skips]; eexists; (split; [reflexivity|]); cbn [s_buttons s_combs s_unknown];
      rewrite ?app_nil_r; (split; [|split]); first [assumption|apply counts_list; assumption|apply counts_inc; assumption].
Qed.

Lemma presses_count b e : count b (ev_buttons e) = presses b e.
Proof.
  destruct e as [c| |]; [|reflexivity..]. cbn [ev_buttons presses]. unfold comb_iter.
  rewrite count_app, !count_NoDup by apply bset_NoDup. reflexivity.
Qed.
Lemma counts_mem {K} `{EqDec K} d f (k : K) : counts d f -> (In k (dkeys d) <-> f k <> 0%Z).
Proof.
  intros [_ Hc]. rewrite dget_key. rewrite Hc. destruct (Z.eqb_spec (f k) 0) as [E|E].
  - split; [intros [v Hv]; discriminate|congruence].
  - split; eauto.
Qed.

(** * Stretches *)
Definition cut (es : list sevent) : list (list comb) * list comb :=
  fold_left (fun p e => match e with SComb c => (fst p, snd p ++ [c]) | _ => (fst p ++ [snd p], []) end) es ([], []).
Lemma stretches_ne es : stretches es <> [].
Proof. destruct es as [|[c| |] es]; cbn; try discriminate. destruct (stretches es); discriminate. Qed.
Lemma stretches_cut es : stretches es = fst (cut es) ++ [snd (cut es)].
Proof.
  unfold cut. assert (G : forall p, let q := fold_left (fun p e => match e with SComb c => (fst p, snd p ++ [c]) | _ => (fst p ++ [snd p], []) end) es p in
    fst p ++ (snd p ++ hd [] (stretches es)) :: tl (stretches es) = fst q ++ [snd q]).
  { induction es as [|e es IH]; intros [ss s]; cbn [fold_left fst snd].
    - cbn. rewrite app_nil_r. reflexivity.
    - destruct e as [c|ch|]; cbn zeta; rewrite <- IH; cbn [fst snd stretches].
      + pose proof (stretches_ne es). destruct (stretches es) as [|x xs]; [congruence|]. cbn [hd tl]. rewrite <- app_assoc. reflexivity.
      + cbn [hd tl]. rewrite app_nil_r, <- app_assoc. cbn [app]. pose proof (stretches_ne es). destruct (stretches es); [congruence|reflexivity].
      + cbn [hd tl]. rewrite app_nil_r, <- app_assoc. cbn [app]. pose proof (stretches_ne es). destruct (stretches es); [congruence|reflexivity]. }
  specialize (G ([], [])). cbn zeta in G. rewrite <- G. cbn [fst snd app]. pose proof (stretches_ne es). destruct (stretches es); [congruence|reflexivity].
Qed.
Lemma cut_snoc es e : cut (es ++ [e]) = match e with SComb c => (fst (cut es), snd (cut es) ++ [c]) | _ => (fst (cut es) ++ [snd (cut es)], []) end.
Proof. unfold cut. rewrite fold_left_app. reflexivity. Qed.

Lemma flat_map_snoc {A B} (f : A -> list B) l x : flat_map f (l ++ [x]) = flat_map f l ++ f x.
Proof. rewrite flat_map_app. cbn. rewrite app_nil_r. reflexivity. Qed.

(** * Run lengths *)
Section Rle.
  Context {A : Type} `{EqDec A}.
  Definition rmerge (p : A * nat) (r : list (A * nat)) : list (A * nat) :=
    match r with (z, m) :: r' => if eqb (fst p) z then (z, snd p + m) :: r' else p :: r | [] => [p] end.
  Lemma rle_cons x l : rle (x :: l) = rmerge (x, 1) (rle l).
  Proof. cbn. destruct (rle l) as [|[y n] r]; reflexivity. Qed.
  Lemma rle_snoc l x : rle (l ++ [x]) =
    match rle l with
    | [] => [(x, 1)]
    | _ => let (y, n) := last (rle l) (x, 0) in
           if eqb x y then removelast (rle l) ++ [(y, S n)] else rle l ++ [(x, 1)]
    end.
  Proof.
    induction l as [|a l IH]; [reflexivity|]. cbn [app]. rewrite !rle_cons, IH.
    destruct (rle l) as [|[y n] r] eqn:El.
    - cbn. rewrite (eqb_sym x a). destruct (eqb_spec a x) as [E|E]; [rewrite E|]; reflexivity.
    - destruct r as [|q r].
      + cbn [last removelast app]. destruct (eqb_spec x y) as [Exy|Exy].
        * cbn [app rmerge fst snd]. destruct (eqb_spec a y) as [Eay|Eay]; cbn [last removelast app].
          -- destruct (eqb_spec x y); [reflexivity|congruence].
          -- destruct (eqb_spec x y); [reflexivity|congruence].
        * cbn [app rmerge fst snd]. destruct (eqb_spec a y) as [Eay|Eay]; cbn [last removelast app].
          -- destruct (eqb_spec x y); [congruence|reflexivity].
          -- destruct (eqb_spec x y); [congruence|reflexivity].
      + assert (L : last ((y, n) :: q :: r) (x, 0) = last (q :: r) (x, 0)) by reflexivity.
        rewrite L. destruct (last (q :: r) (x, 0)) as [z m] eqn:Elast.
        assert (RL : removelast ((y, n) :: q :: r) = (y, n) :: removelast (q :: r)) by reflexivity.
        rewrite RL.
        assert (LM : last (rmerge (a, 1) ((y, n) :: q :: r)) (x, 0) = (z, m)).
        { cbn [rmerge fst snd]. destruct (eqb a y); cbn [last]; exact Elast. }
        destruct (rmerge (a, 1) ((y, n) :: q :: r)) as [|p0 l0] eqn:Em; [cbn [rmerge fst snd] in Em; destruct (eqb a y); discriminate|].
        rewrite LM, <- Em. destruct (eqb x z).
        * cbn [app rmerge fst snd]. destruct (eqb a y); reflexivity.
        * cbn [app rmerge fst snd]. destruct (eqb a y); reflexivity.
  Qed.
  Lemma rle_ne l : l <> [] -> rle l <> [].
  Proof. destruct l as [|x l]; [congruence|]. rewrite rle_cons. unfold rmerge. destruct (rle l) as [|[y n] r]; [congruence|]. destruct (eqb _ y); congruence. Qed.

  (** Specification of [rle] *)
  Lemma rle_is_rle l : is_rle l (rle l).
  Proof.
    induction l as [|x l (E & P & D)]; [repeat split; constructor|]. rewrite rle_cons.
    destruct (rle l) as [|[y n] r]; cbn [rmerge fst snd].
    - cbn in E. subst l. repeat split; cbn; auto.
    - destruct (eqb_spec x y) as [Exy|Exy].
      + rewrite Exy in *. split; [cbn in *; congruence|]. split; [inversion P; subst; constructor; [cbn; lia|assumption]|exact D].
      + split; [cbn in *; congruence|]. split; [constructor; [cbn; lia|exact P]|]. cbn. split; [exact Exy|exact D].
  Qed.
  Lemma is_rle_unique (l : list A) r1 r2 : is_rle l r1 -> is_rle l r2 -> r1 = r2.
  Proof.
    intros (E1 & P1 & D1) (E2 & P2 & D2). subst l. revert r2 E2 P1 P2 D1 D2.
    assert (Hd : forall x n r, 0 < n -> exists t, concat (map (fun p : A * nat => repeat (fst p) (snd p)) ((x, n) :: r)) = x :: t).
    { intros x [|n] r Hn; [lia|]. cbn. eauto. }
    induction r1 as [|[x n] r1 IH]; intros [|[y m] r2] E P1 P2 D1 D2.
    - reflexivity.
    - inversion P2; subst. destruct (Hd y m r2) as [t Ht]; [assumption|]. rewrite Ht in E. discriminate.
    - inversion P1; subst. destruct (Hd x n r1) as [t Ht]; [assumption|]. rewrite Ht in E. discriminate.
    - inversion P1 as [|? ? Pn P1']; inversion P2 as [|? ? Pm P2']; subst. cbn [fst snd] in *.
      assert (x = y) as <-.
      { destruct (Hd x n r1 Pn) as [t Ht], (Hd y m r2 Pm) as [t' Ht']. rewrite Ht, Ht' in E. congruence. }
      assert (Hnext : forall k r, Forall (fun p : A * nat => 0 < snd p) r -> adjacent_distinct (x :: map fst r) ->
         forall k' r', Forall (fun p : A * nat => 0 < snd p) r' -> adjacent_distinct (x :: map fst r') ->
         repeat x k ++ concat (map (fun p => repeat (fst p) (snd p)) r) = repeat x k' ++ concat (map (fun p => repeat (fst p) (snd p)) r') -> k <= k').
      { intros k. induction k as [|k IHk]; intros r Pr Dr k' r' Pr' Dr' Er; [lia|]. destruct k' as [|k'].
        - exfalso. destruct r' as [|[z q] r']; [discriminate|]. inversion Pr'; subst. cbn [fst snd] in *. destruct q as [|q]; [lia|].
          cbn in Er. inversion Er; subst. cbn in Dr'. tauto.
        - cbn in Er. inversion Er. apply le_n_S. eapply IHk; [exact Pr|exact Dr|exact Pr'|exact Dr'|assumption]. }
      assert (n = m) as <-.
      { apply Nat.le_antisymm; [eapply Hnext; [exact P1'|exact D1|exact P2'|exact D2|symmetry; exact E]|eapply Hnext; [exact P2'|exact D2|exact P1'|exact D1|exact E]]. }
      f_equal. apply IH; auto.
      + cbn [map concat fst snd] in E. apply app_inv_head in E. exact E.
      + cbn in D1. destruct (map fst r1); cbn in *; tauto.
      + cbn in D2. destruct (map fst r2); cbn in *; tauto.
  Qed.

  Lemma rle_cases l : rle l = [] \/ exists a y n, rle l = a ++ [(y, n)].
  Proof. destruct (rle l) as [|[y n] r] using rev_ind; [auto|right; eauto]. Qed.
  Lemma rle_snoc_nil l x : rle l = [] -> rle (l ++ [x]) = [(x, 1)].
  Proof. intros E. rewrite rle_snoc, E. reflexivity. Qed.
  Lemma rle_snoc_app l x a y n : rle l = a ++ [(y, n)] ->
    rle (l ++ [x]) = if eqb x y then a ++ [(y, S n)] else a ++ [(y, n)] ++ [(x, 1)].
  Proof.
    intros E. rewrite rle_snoc, E, last_last, removelast_last. 
    destruct (a ++ [(y, n)]) eqn:Ea; [destruct a; discriminate|]. rewrite <- Ea. destruct (eqb x y); [reflexivity|]. rewrite <- app_assoc. reflexivity.
  Qed.

  (** The run in progress. *)
  Definition cur_run (l : list A) : option (A * nat) := match rev (rle l) with p :: _ => Some p | [] => None end.
  Lemma cur_run_snoc l x : cur_run (l ++ [x]) =
    Some match cur_run l with Some (y, n) => if eqb x y then (y, S n) else (x, 1) | None => (x, 1) end.
  Proof.
    unfold cur_run. destruct (rle_cases l) as [E|(a & y & n & E)].
    - rewrite (rle_snoc_nil _ x E), E. reflexivity.
    - rewrite (rle_snoc_app _ x _ _ _ E), E, rev_unit. destruct (eqb x y); [rewrite rev_unit; reflexivity|].
      rewrite app_assoc, rev_unit. reflexivity.
  Qed.
  Lemma completed_snoc l x : completed (l ++ [x]) =
    completed l ++ match cur_run l with Some (y, n) => if eqb x y then [] else [(y, n)] | None => [] end.
  Proof.
    unfold completed, cur_run. destruct (rle_cases l) as [E|(a & y & n & E)].
    - rewrite (rle_snoc_nil _ x E), E. reflexivity.
    - rewrite (rle_snoc_app _ x _ _ _ E), E, rev_unit, removelast_last.
      destruct (eqb x y); [rewrite removelast_last, app_nil_r; reflexivity|].
      rewrite app_assoc, removelast_last. reflexivity.
  Qed.
  Lemma combine_prefix {B C} (l : list B) (m m' : list C) : length l = length m -> combine l (m ++ m') = combine l m.
  Proof. revert m; induction l as [|x l IH]; intros [|y m]; cbn; intros E; try discriminate; [destruct m'; reflexivity|]. f_equal. apply IH. congruence. Qed.
  Lemma combine_app' {B C} (l l' : list B) (m m' : list C) : length l = length m -> combine (l ++ l') (m ++ m') = combine l m ++ combine l' m'.
  Proof. revert m; induction l as [|x l IH]; intros [|y m]; cbn; intros E; try discriminate; [reflexivity|]. f_equal. apply IH. congruence. Qed.
  Lemma tl_snoc {B} (l : list B) x : length (tl (l ++ [x])) = length l.
  Proof. destruct l; cbn; [reflexivity|]. rewrite app_length. cbn. lia. Qed.
  Lemma credited_snoc l x : credited (l ++ [x]) =
    credited l ++ match cur_run l with Some (y, n) => if eqb x y then [] else [(x, n)] | None => [] end.
  Proof.
    unfold credited, cur_run. destruct (rle_cases l) as [E|(a & y & n & E)].
    - rewrite (rle_snoc_nil _ x E), E. reflexivity.
    - rewrite (rle_snoc_app _ x _ _ _ E), E, rev_unit.
      assert (T : forall (b : list (A * nat)) p q, tl (b ++ p :: q) = tl (b ++ [p]) ++ q) by (intros [|b0 b] p q; cbn; [reflexivity|rewrite <- app_assoc; reflexivity]).
      assert (Hl : forall m, length (map fst (tl (a ++ [(y, m)]))) = length (map snd a)).
      { intros m. rewrite !map_length, tl_snoc. reflexivity. }
      destruct (eqb x y).
      + rewrite app_nil_r, !map_app. cbn [map snd]. rewrite !combine_prefix by apply Hl. f_equal. destruct a; cbn; [reflexivity|]. rewrite !map_app. reflexivity.
      + change ([(y, n)] ++ [(x, 1)]) with ((y, n) :: [(x, 1)]). rewrite T, !map_app. cbn [map fst snd].
        change [n; 1] with ([n] ++ [1]). rewrite combine_app' by apply Hl. rewrite (combine_prefix _ _ [n]) by apply Hl. reflexivity.
  Qed.
  Lemma cur_run_nil : cur_run [] = None.
  Proof. reflexivity. Qed.
End Rle.

(** Invariant of RunlenStats. *)
Section Runlen.
  Variable fm : list (string * (direction * finger)).
  Notation hf := (hand_finger fm).
  Definition hands (s : list comb) : list direction := map (fun c => fst (hf c)) s.
  Definition fings (s : list comb) : list (direction * finger) := map hf s.

  Definition nested_counts {K} `{EqDec K} (keys : list K) (d : list (K * list (nat * Z))) (l : list (K * nat)) : Prop :=
    dkeys d = keys /\ forall h, In h keys -> exists i, dget d h = Some i /\ counts i (fun n => count (h, n) l).

  Lemma nested_counts_inc {K} `{EqDec K} keys (d : list (K * list (nat * Z))) l h n : In h keys -> nested_counts keys d l ->
    exists d', nested_inc d h n = Ok d' /\ nested_counts keys d' (l ++ [(h, n)]).
  Proof.
    intros Hk [Hd Hc]. destruct (Hc h Hk) as (i & Ei & Ci). unfold nested_inc, dgetM. rewrite Ei. cbn [of_opt bind].
    eexists. split; [reflexivity|]. split.
    - rewrite dkeys_dset. replace (dhas d h) with true; [exact Hd|]. symmetry. apply dhas_key. rewrite Hd. exact Hk.
    - intros h' Hh'. rewrite dget_dset. destruct (eqb_spec h' h) as [E|E].
      + eexists. split; [reflexivity|]. rewrite E. eapply counts_ext; [|apply counts_cadd; [|apply Z.lt_0_1|exact Ci]]; [|intros; apply count_nonneg].
        intros k. rewrite count_app. cbn [count]. change (eqb (h, k) (h, n)) with (prod_eqb (h, k) (h, n)). unfold prod_eqb. cbn [fst snd]. rewrite eqb_refl. cbn [andb]. lia.
      + destruct (Hc h' Hh') as (i' & Ei' & Ci'). exists i'. split; [exact Ei'|]. eapply counts_ext; [|exact Ci'].
        intros k. cbn beta. rewrite count_app. cbn [count]. change (eqb (h', k) (h, n)) with (prod_eqb (h', k) (h, n)). unfold prod_eqb. cbn [fst snd].
        destruct (eqb_spec h' h); [congruence|]. cbn [andb]. lia.
  Qed.
  Lemma nested_counts_perm {K} `{EqDec K} keys (d : list (K * list (nat * Z))) l l' : (forall x, count x l = count x l') -> nested_counts keys d l -> nested_counts keys d l'.
  Proof.
    intros E [Hd Hc]. split; [exact Hd|]. intros h Hh. destruct (Hc h Hh) as (i & Ei & Ci). exists i. split; [exact Ei|].
    eapply counts_ext; [|exact Ci]. intros k. apply E.
  Qed.

  Lemma all_directions_In h : In h all_directions.
  Proof. destruct h; cbn; auto. Qed.
  Lemma all_hf_In p : In p (list_prod all_directions all_fingers).
  Proof. destruct p as [d f]. apply in_prod; [apply all_directions_In|]. destruct f; cbn; auto 6. Qed.

  Definition run_counts (st : runlen) (es : list sevent) : Prop :=
    nested_counts all_directions (r_hand st) (flat_map (fun s => completed (hands s)) (stretches es)) /\
    nested_counts (list_prod all_directions all_fingers) (r_finger st) (flat_map (fun s => credited (fings s)) (stretches es)).

  Lemma runlen_inv es : Forall (pressable fm) es -> exists st, foldM (runlen_process fm) es runlen_init = Ok st /\
    run_counts st es /\
    (r_lastHand st, r_curHand st) = match cur_run (hands (snd (cut es))) with Some (h, n) => (Some h, n) | None => (None, 0) end /\
    (r_lastFinger st, r_curFinger st) = match cur_run (fings (snd (cut es))) with Some (h, n) => (Some h, n) | None => (None, 0) end.
  Proof.
    induction es as [|e es IH] using rev_ind; intros Hp.
    - exists runlen_init. split; [reflexivity|]. split; [|split; reflexivity]. split; (split; [reflexivity|]).
      + intros h _. exists []. split; [destruct h; reflexivity|apply counts_nil].
      + intros h _. exists []. split; [destruct h as [[] []]; reflexivity|apply counts_nil].
    - apply Forall_app in Hp as [Hp He]. inversion He as [|? ? He' _]; subst.
      destruct (IH Hp) as (st & E & [CH CF] & SH & SF). rewrite foldM_snoc, E. cbn [bind]. unfold run_counts. rewrite stretches_cut in *. rewrite cut_snoc.
      destruct (cut es) as [ss s]; cbn [fst snd] in *.
      destruct e as [c|ch|]; [| |destruct He'].
      + destruct He' as (b & Eb & Hb). apply dget_key in Hb as [[h f] Hf].
        assert (Ehf : hf c = (h, f)) by (unfold hand_finger; rewrite Eb, Hf; reflexivity).
        cbn [runlen_process fst snd]. unfold the_button, getHandFinger, dgetM. rewrite Eb. cbn [length Nat.eqb assert_ bind first of_opt]. rewrite Hf. cbn [of_opt bind].
        rewrite (flat_map_snoc (fun s => completed (hands s))) in CH |- *. rewrite (flat_map_snoc (fun s => credited (fings s))) in CF |- *.
        assert (Eh : hands (s ++ [c]) = hands s ++ [h]) by (unfold hands; rewrite map_app; cbn; rewrite Ehf; reflexivity).
        assert (Ef : fings (s ++ [c]) = fings s ++ [(h, f)]) by (unfold fings; rewrite map_app; cbn; rewrite Ehf; reflexivity).
        rewrite Eh, Ef, completed_snoc, credited_snoc, !cur_run_snoc.
        (* hands *)
        assert (GH : exists d n, match r_lastHand st with
              | Some l => if eqb h l then Ok (r_hand st, r_curHand st) else do d <- nested_inc (r_hand st) l (r_curHand st); Ok (d, 0)
              | None => Ok (r_hand st, r_curHand st) end = Ok (d, n) /\
            nested_counts all_directions d (flat_map (fun s => completed (hands s)) ss ++ completed (hands s) ++
               match cur_run (hands s) with Some (y, n) => if eqb h y then [] else [(y, n)] | None => [] end) /\
            (Some h, S n) = let (h', n') := match cur_run (hands s) with Some (y, n) => if eqb h y then (y, S n) else (h, 1) | None => (h, 1) end in (Some h', n')).
        { destruct (cur_run (hands s)) as [[y n]|]; inversion SH as [[S1 S2]]; rewrite S1, S2.
          - destruct (eqb_spec h y) as [Ey|Ey].
            + exists (r_hand st), n. rewrite app_nil_r, Ey. auto.
            + destruct (nested_counts_inc y n (all_directions_In y) CH) as (d' & Ed & Cd). rewrite Ed. cbn [bind].
              exists d', 0. rewrite app_assoc. auto.
          - exists (r_hand st), 0. rewrite app_nil_r. auto. }
        assert (GF : exists d n, match r_lastFinger st with
              | Some l => if eqb (h, f) l then Ok (r_finger st, r_curFinger st) else do d <- nested_inc (r_finger st) (h, f) (r_curFinger st); Ok (d, 0)
              | None => Ok (r_finger st, r_curFinger st) end = Ok (d, n) /\
            nested_counts (list_prod all_directions all_fingers) d (flat_map (fun s => credited (fings s)) ss ++ credited (fings s) ++
               match cur_run (fings s) with Some (y, n) => if eqb (h, f) y then [] else [((h, f), n)] | None => [] end) /\
            (Some (h, f), S n) = let (h', n') := match cur_run (fings s) with Some (y, n) => if eqb (h, f) y then (y, S n) else ((h, f), 1) | None => ((h, f), 1) end in (Some h', n')).
        { destruct (cur_run (fings s)) as [[y n]|]; inversion SF as [[S1 S2]]; rewrite S1, S2.
          - destruct (eqb_spec (h, f) y) as [Ey|Ey].
            + exists (r_finger st), n. rewrite app_nil_r, Ey. auto.
            + destruct (nested_counts_inc (h, f) n (all_hf_In (h, f)) CF) as (d' & Ed & Cd). rewrite Ed. cbn [bind].
              exists d', 0. rewrite app_assoc. auto.
          - exists (r_finger st), 0. rewrite app_nil_r. auto. }
        destruct GH as (d1 & n1 & E1 & C1 & G1), GF as (d2 & n2 & E2 & C2 & G2). rewrite E1, E2. cbn [bind fst snd].
        eexists. split; [reflexivity|]. cbn [r_hand r_finger r_lastHand r_curHand r_lastFinger r_curFinger].
        split; [split; [exact C1|exact C2]|]. split; [exact G1|exact G2].
      + cbn [runlen_process fst snd]. eexists. split; [reflexivity|]. cbn [r_hand r_finger r_lastHand r_curHand r_lastFinger r_curFinger].
        rewrite (flat_map_snoc (fun s => completed (hands s)) (ss ++ [s])), (flat_map_snoc (fun s => credited (fings s)) (ss ++ [s])).
        cbn [hands fings map]. rewrite !app_nil_r. split; [split; assumption|split; reflexivity].
  Qed.
End Runlen.

(** * Triads *)
Definition lastn {A} n (l : list A) : list A := skipn (length l - n) l.
Lemma lastn_snoc3 {A} (l : list A) x :
  let t1 := lastn 3 l ++ [x] in lastn 3 (l ++ [x]) = if Nat.ltb 3 (length t1) then tl t1 else t1.
Proof.
  cbn zeta. unfold lastn. rewrite !app_length, skipn_length. cbn [length].
  destruct (le_lt_dec 3 (length l)) as [H|H].
  - destruct (Nat.ltb_spec 3 (length l - (length l - 3) + 1)); [|lia].
    replace (length l + 1 - 3) with (S (length l - 3)) by lia.
    rewrite skipn_app. replace (S (length l - 3) - length l) with 0 by lia. cbn [skipn].
    assert (Hs : skipn (length l - 3) l <> []) by (intros E; apply (f_equal (@length A)) in E; rewrite skipn_length in E; cbn in E; lia).
    destruct (skipn (length l - 3) l) as [|y r] eqn:E; [congruence|]. cbn [app tl]. f_equal.
    clear - E. revert E. generalize (length l - 3). intros n. revert l. induction n as [|n IH]; intros [|a l] E; cbn in *; try discriminate; try (inversion E; reflexivity).
    apply IH, E.
  - replace (length l - 3) with 0 by lia. cbn [skipn]. destruct (Nat.ltb_spec 3 (length l - 0 + 1)); [lia|].
    replace (length l + 1 - 3) with 0 by lia. reflexivity.
Qed.
Lemma lastn_le {A} n (l : list A) : length (lastn n l) <= n.
Proof. unfold lastn. rewrite skipn_length. lia. Qed.
Lemma lastn_len {A} n (l : list A) : length (lastn n l) = Nat.min n (length l).
Proof. unfold lastn. rewrite skipn_length. lia. Qed.
Lemma windows_snoc {A} (l : list A) x :
  windows (l ++ [x]) = windows l ++ (if Nat.eqb (length (lastn 3 (l ++ [x]))) 3 then [lastn 3 (l ++ [x])] else []).
Proof.
  rewrite lastn_len, app_length. cbn [length].
  induction l as [|a l IH]; [reflexivity|]. destruct l as [|b l]; [reflexivity|]. destruct l as [|c l]; [reflexivity|].
  change (windows ((a :: b :: c :: l) ++ [x])) with ([a; b; c] :: windows ((b :: c :: l) ++ [x])).
  change (windows (a :: b :: c :: l)) with ([a; b; c] :: windows (b :: c :: l)).
  rewrite IH. cbn [length app]. f_equal. f_equal.
  replace (Nat.min 3 (S (S (length l)) + 1)) with 3 by lia. replace (Nat.min 3 (S (S (S (length l))) + 1)) with 3 by lia.
  cbn [Nat.eqb]. f_equal. unfold lastn. cbn [length]. rewrite app_length. cbn [length].
  replace (S (S (S (length l + 1))) - 3) with (S (length l)) by lia.
  replace (S (S (length l + 1)) - 3) with (length l) by lia. reflexivity.
Qed.
Lemma windows_length {A} (l : list A) : length (windows l) = length l - 2.
Proof.
  induction l as [|a l IH]; [reflexivity|]. destruct l as [|b [|c l]]; [reflexivity..|].
  change (windows (a :: b :: c :: l)) with ([a; b; c] :: windows (b :: c :: l)). cbn [length] in *. rewrite IH. lia.
Qed.

Section Triads.
  Variable ign : bset.
  Notation counted := (counted ign).
  Lemma triads_inv es : Forall single es -> exists st, foldM triads_process es (mkTriads [] [] ign) = Ok st /\
    t_ignored st = ign /\ t_cur st = lastn 3 (filter counted (snd (cut es))) /\
    counts (t_triads st) (fun k => count k (flat_map (fun s => windows (filter counted s)) (stretches es))).
  Proof.
    induction es as [|e es IH] using rev_ind; intros Hp.
    - eexists. split; [reflexivity|]. repeat split; try constructor.
    - apply Forall_app in Hp as [Hp He]. inversion He as [|? ? He' _]; subst.
      destruct (IH Hp) as (st & E & Hi & Hc & Ct). rewrite foldM_snoc, E. cbn [bind]. rewrite stretches_cut in *. rewrite cut_snoc.
      destruct (cut es) as [ss s]; cbn [fst snd] in *. destruct e as [c|ch|]; [| |destruct He'].
      + destruct He' as [b Eb]. cbn [triads_process fst snd]. unfold the_button. rewrite Eb. cbn [length Nat.eqb assert_ bind first].
        rewrite Hi. rewrite !flat_map_app in Ct |- *. cbn [flat_map] in Ct |- *. rewrite !app_nil_r in Ct |- *.
        rewrite filter_app. cbn [filter]. assert (Ek : counted c = negb (mem b (elems ign))) by (unfold counted; rewrite Eb; reflexivity). rewrite Ek.
        destruct (mem b (elems ign)) eqn:Em; cbn [negb].
        * rewrite app_nil_r. exists st. auto.
        * rewrite lastn_snoc3, windows_snoc, lastn_snoc3. cbn zeta. rewrite Hc.
          destruct (Nat.ltb_spec 3 (length (lastn 3 (filter counted s) ++ [c]))) as [Hl|Hl].
          -- rewrite app_length, lastn_len in Hl. cbn [length] in Hl.
             assert (Ht : length (tl (lastn 3 (filter counted s) ++ [c])) = 3) by (rewrite tl_snoc, lastn_len; lia).
             rewrite Ht. cbn [Nat.eqb assert_ bind]. eexists. split; [reflexivity|]. cbn [t_ignored t_cur t_triads]. rewrite Ht. cbn [Nat.eqb].
             split; [reflexivity|]. split; [reflexivity|]. rewrite app_assoc. apply counts_inc, Ct.
          -- cbn [bind]. eexists. split; [reflexivity|]. cbn [t_ignored t_cur t_triads]. split; [reflexivity|]. split; [reflexivity|].
             destruct (Nat.eqb _ 3); [rewrite app_assoc; apply counts_inc, Ct|rewrite app_nil_r; exact Ct].
      + cbn [triads_process]. eexists. split; [reflexivity|]. cbn [t_ignored t_cur t_triads fst snd]. split; [exact Hi|]. split; [reflexivity|].
        rewrite (flat_map_snoc _ (ss ++ [s])). cbn [filter windows]. rewrite app_nil_r. exact Ct.
  Qed.
End Triads.

(** * Words *)
Section Words.
  Variable letter : N -> bool.
  Variable L : layout.
  Notation typed := (typed L).
  Notation typable := (typable L).

  Lemma split_ne t : split_at letter t <> [].
  Proof. destruct t as [|c t]; cbn; [discriminate|]. destruct (letter c); [|discriminate]. destruct (split_at letter t); discriminate. Qed.
  Lemma split_snoc t c : split_at letter (t ++ [c]) =
    removelast (split_at letter t) ++ if letter c then [last (split_at letter t) [] ++ [c]] else [last (split_at letter t) []; []].
  Proof.
    induction t as [|a t IH]; cbn [app split_at].
    - destruct (letter c); reflexivity.
    - rewrite IH. destruct (letter a).
      + pose proof (split_ne t) as Hn. destruct (split_at letter t) as [|w ws]; [congruence|]. destruct ws as [|w' ws].
        * cbn. destruct (letter c); reflexivity.
        * change (removelast (w :: w' :: ws)) with (w :: removelast (w' :: ws)).
          change (removelast ((a :: w) :: w' :: ws)) with ((a :: w) :: removelast (w' :: ws)). cbn [app].
          change (last (w :: w' :: ws) []) with (last (w' :: ws) []).
          change (last ((a :: w) :: w' :: ws) []) with (last (w' :: ws) []). reflexivity.
      + pose proof (split_ne t) as Hn. destruct (split_at letter t) as [|w ws]; [congruence|].
        change (removelast ([] :: w :: ws)) with ([] :: removelast (w :: ws)).
        change (last ([] :: w :: ws) []) with (last (w :: ws) []). reflexivity.
  Qed.
  Definition pending (t : text) : text := last (split_at letter t) [].
  Lemma words_char_step s t c m : w_cur s = pending t -> counts (w_words s) (fun k => count k (m ++ finished_words letter t)) ->
    w_cur (words_char letter s c) = pending (t ++ [c]) /\
    counts (w_words (words_char letter s c)) (fun k => count k (m ++ finished_words letter (t ++ [c]))).
  Proof.
    intros Hc Hw. unfold pending, finished_words in *. rewrite split_snoc. unfold words_char. destruct (letter c).
    - rewrite last_last, removelast_last. cbn [w_cur w_words]. rewrite Hc. auto.
    - replace (removelast (split_at letter t) ++ [last (split_at letter t) []; []]) with ((removelast (split_at letter t) ++ [last (split_at letter t) []]) ++ [[]])
        by (rewrite <- app_assoc; reflexivity).
      rewrite last_last, removelast_last, filter_app. cbn [filter]. destruct (w_cur s) as [|x w] eqn:Ew; rewrite <- Hc.
      + cbn [length Nat.eqb negb]. rewrite app_nil_r. rewrite Ew. auto.
      + cbn [length Nat.eqb negb w_cur w_words]. split; [reflexivity|]. rewrite app_assoc. apply counts_inc, Hw.
  Qed.
  Lemma words_text_step t' s t m : w_cur s = pending t -> counts (w_words s) (fun k => count k (m ++ finished_words letter t)) ->
    let s' := fold_left (words_char letter) t' s in
    w_cur s' = pending (t ++ t') /\ counts (w_words s') (fun k => count k (m ++ finished_words letter (t ++ t'))).
  Proof.
    cbn zeta. revert s t; induction t' as [|c t' IH]; intros s t Hc Hw; cbn [fold_left].
    - rewrite app_nil_r. auto.
    - destruct (words_char_step s t c m Hc Hw) as [Hc' Hw'].
      replace (t ++ c :: t') with ((t ++ [c]) ++ t') by (rewrite <- app_assoc; reflexivity). apply IH; assumption.
  Qed.
  Lemma words_inv es : Forall typable es -> exists st, foldM (words_process letter L) es words_init = Ok st /\
    w_cur st = pending (flat_map typed (snd (cut es))) /\
    counts (w_words st) (fun k => count k (flat_map (fun s => finished_words letter (flat_map typed s)) (stretches es))).
  Proof.
    induction es as [|e es IH] using rev_ind; intros Hp.
    - eexists. split; [reflexivity|]. repeat split; try constructor.
    - apply Forall_app in Hp as [Hp He]. inversion He as [|? ? He' _]; subst.
      destruct (IH Hp) as (st & E & Hc & Ct). rewrite foldM_snoc, E. cbn [bind]. rewrite stretches_cut in *. rewrite cut_snoc.
      destruct (cut es) as [ss s]; cbn [fst snd] in *. destruct e as [c|ch|]; [| |destruct He'].
      + destruct He' as [t Et]. cbn [words_process fst snd]. rewrite Et. cbn [bind]. eexists. split; [reflexivity|].
        rewrite (flat_map_snoc (fun s => finished_words letter (flat_map typed s))) in Ct |- *.
        assert (Etc : typed c = t) by (unfold typed; rewrite Et; reflexivity). rewrite flat_map_app. cbn [flat_map]. rewrite Etc, app_nil_r.
        apply words_text_step; assumption.
      + cbn [words_process]. eexists. split; [reflexivity|]. cbn [w_cur w_words fst snd]. split; [reflexivity|].
        rewrite (flat_map_snoc _ (ss ++ [s])). cbn [flat_map]. change (finished_words letter []) with (@nil text). rewrite app_nil_r. exact Ct.
  Qed.
End Words.
