(** Proofs about the layout that is written (C38). *)
From Verif Require Import Base LayoutModel LayoutSpec LayoutProofs CarpalxModel CarpalxProofs OptModel OptSpec OptProofs OptEnergy.
Open Scope list_scope.
Set Implicit Arguments.
Unset Strict Implicit.

Lemma target_sent bm k : sent bm k (target bm k).
Proof.
  unfold target. destruct (dget bm k) eqn:E; [now apply sent_mapped|]. apply sent_stays. now apply dget_None.
Qed.
Lemma sent_target bm k t : sent bm k t -> target bm k = t.
Proof.
  intros [k' t' G|k' N]; unfold target; [now rewrite G|]. apply dget_None in N. now rewrite N.
Qed.
Lemma one_vals_inj bm : one_to_one bm -> forall k1 k2 t, goes bm k1 t -> goes bm k2 t -> k1 = k2.
Proof.
  intros [W P] k1 k2 t G1 G2. unfold goes in *. apply dget_In in G1. apply dget_In in G2.
  assert (N : NoDup (dvals bm)) by (eapply Permutation_NoDup; eauto).
  clear W P. unfold dvals in N. induction bm as [|[a b] bm IH]; [destruct G1|].
  cbn in N. inversion N as [|? ? Hn N']; subst.
  destruct G1 as [G1|G1], G2 as [G2|G2]; try congruence; auto.
  - injection G1 as -> ->. exfalso. apply Hn. apply in_map_iff. now exists (k2, t).
  - injection G2 as -> ->. exfalso. apply Hn. apply in_map_iff. now exists (k1, t).
Qed.
Lemma one_vals_key bm : one_to_one bm -> forall k t, goes bm k t -> In t (dkeys bm).
Proof.
  intros [W P] k t G. apply (Permutation_in _ (Permutation_sym P)).
  apply dget_In in G. unfold dvals. apply in_map_iff. now exists (k, t).
Qed.
(** Nothing is sent to the same place. *)
Lemma sent_inj bm k1 k2 t : one_to_one bm -> sent bm k1 t -> sent bm k2 t -> k1 = k2.
Proof.
  intros O [a b G|a N] H2.
  - inversion H2 as [? ? G2|? N2]; subst; [eapply one_vals_inj; eauto|].
    exfalso. apply N2. eapply one_vals_key; eauto.
  - inversion H2 as [? ? G2|? N2]; subst; [|reflexivity].
    exfalso. apply N. eapply one_vals_key; eauto.
Qed.
Lemma sent_onto bm t : one_to_one bm -> exists k, sent bm k t.
Proof.
  intros [W P]. destruct (in_dec (fun x y => eq_dec x y) t (dkeys bm)) as [Hin|N]; [|exists t; now apply sent_stays].
  apply (Permutation_in _ P) in Hin. unfold dvals in Hin. apply in_map_iff in Hin as ([k t'] & E & Hin). cbn in E. subst t'.
  exists k. apply sent_mapped. now apply (dget_In_iff _ _ _ W).
Qed.

Section Output.
  Variable ordm : bset -> list string.
  Variable ls : list layer.
  Notation L := (layout_new ls).
  Variable kb : list string.
  Variable bm : bmap.
  Hypothesis Hdisj : mods_disjoint ls.
  Hypothesis Hmods : Forall (fun l => lmods l <> []) ls.
  Hypothesis Hone : one_to_one bm.
  Hypothesis Hrange : Forall (fun k => fst k < List.length ls) (dkeys bm).

  Definition cell_of (out : list layer_data) (k : key) : option cell :=
    match nth_error out (fst k) with Some d => dget (ld_layer d) (snd k) | None => None end.
  Definition mod_of (out : list layer_data) (j : nat) : option (list (list string)) := option_map ld_modifier (nth_error out j).
  Definition dicts_ok (out : list layer_data) : Prop := Forall (fun d => dict_wf (ld_layer d)) out.

  Lemma frozenset_single (k : string) : elems (frozenset [k]) = [k].
  Proof. apply Permutation_length_1_inv, Permutation_sym, frozenset_Permutation. repeat constructor; auto. Qed.
  Lemma getText_key i l m k : nth_error ls i = Some l -> In m (lmods l) ->
    getText L (mkComb m (frozenset [k])) = dgetM (llayout l) k.
  Proof.
    intros Hl Hm. unfold getText; cbn [cmod cbtn].
    assert (E : modifierToLayer L m = Ok (i, l)).
    { destruct (modifierToLayer_some ls m) as ([i' l'] & E); [exists l; split; [eapply nth_error_In; eauto|assumption]|].
      rewrite E. apply modifierToLayer_ok in E. destruct E as (Hl' & Hm' & _).
      assert (i' = i) as -> by (eapply Hdisj; eauto). congruence. }
    rewrite E. cbn [bind]. rewrite frozenset_single. reflexivity.
  Qed.

  Lemma target_range i k : i < List.length ls -> fst (target bm (i, k)) < List.length ls.
  Proof.
    intros Hi. unfold target. destruct (dget bm (i, k)) as [t|] eqn:G; [|exact Hi].
    rewrite Forall_forall in Hrange. apply Hrange. eapply one_vals_key; eauto.
  Qed.

  Lemma cell_of_upd out j d d' k : nth_error out j = Some d ->
    cell_of (upd out j d') k = if Nat.eqb (fst k) j then dget (ld_layer d') (snd k) else cell_of out k.
  Proof.
    intros E. unfold cell_of. rewrite nth_error_upd', E. destruct (Nat.eqb (fst k) j); reflexivity.
  Qed.

  (** What writing one key does *)
  Lemma put_key_ok i l k out : nth_error ls i = Some l -> List.length out = List.length ls -> dicts_ok out ->
    exists out', put_key L bm i l out k = Ok out' /\ List.length out' = List.length ls /\ dicts_ok out' /\
      (forall j, mod_of out' j = mod_of out j) /\
      (forall x, cell_of out' x =
         match dget (llayout l) k with
         | Some v => if eqb x (target bm (i, k)) then Some v else cell_of out x
         | None => cell_of out x
         end).
  Proof.
    intros Hl Hlen Hok. unfold put_key. destruct (target bm (i, k)) as [j k'] eqn:Et.
    assert (Hi : i < List.length ls) by (apply nth_error_Some; congruence).
    pose proof (target_range k Hi) as Hj. rewrite Et in Hj. cbn [fst] in Hj.
    destruct (nth_error out j) as [d|] eqn:Ed; [|apply nth_error_None in Ed; lia]. cbn [of_opt bind].
    pose proof (proj1 (Forall_forall _ _) Hmods l (nth_error_In _ _ Hl)) as Hne.
    destruct (lmods l) as [|m0 ms] eqn:Em; [congruence|]. cbn [hd_error of_opt bind].
    rewrite (@getText_key i l m0 k Hl) by (rewrite Em; left; reflexivity).
    unfold dgetM. destruct (dget (llayout l) k) as [v|] eqn:Ev; cbn [of_opt].
    2:{ exists out. repeat split; auto. }
    eexists. split; [reflexivity|]. split; [now rewrite upd_length|]. split; [|split].
    - unfold dicts_ok. apply Forall_forall. intros x Hx. apply In_upd in Hx as [->|Hx].
      + cbn. apply dset_wf. unfold dicts_ok in Hok; rewrite Forall_forall in Hok. apply Hok. eapply nth_error_In; eauto.
      + unfold dicts_ok in Hok; rewrite Forall_forall in Hok. auto.
    - intros j'. unfold mod_of. rewrite nth_error_upd', Ed.
      destruct (Nat.eqb_spec j' j) as [->|]; [rewrite Ed; reflexivity|reflexivity].
    - intros [xj xk]. rewrite (cell_of_upd _ _ Ed). cbn [fst snd ld_layer].
      destruct (Nat.eqb_spec xj j) as [->|Nj].
      + rewrite dget_dset. unfold cell_of; cbn [fst snd]. rewrite Ed.
        destruct (eqb_spec xk k') as [->|Nk].
        * destruct (eqb_spec (j, k') (j, k')); [reflexivity|congruence].
        * destruct (eqb_spec (j, xk) (j, k')); [congruence|reflexivity].
      + destruct (eqb_spec (xj, xk) (j, k')); [congruence|reflexivity].
  Qed.

  (** What is known after a set of keys has been written *)
  Definition written (done : key -> Prop) (out : list layer_data) : Prop :=
    List.length out = List.length ls /\ dicts_ok out /\
    forall x v, cell_of out x = Some v <-> exists k, done k /\ target bm k = x /\ says ls k v.
  Lemma put_key_written done i l k out : nth_error ls i = Some l -> written done out ->
    exists out', put_key L bm i l out k = Ok out' /\ written (fun x => done x \/ x = (i, k)) out' /\
      (forall j, mod_of out' j = mod_of out j).
  Proof.
    intros Hl (Hlen & Hok & Hw). destruct (put_key_ok k Hl Hlen Hok) as (out' & E & Hlen' & Hok' & Hm & Hc).
    exists out'. split; [assumption|]. split; [|assumption]. split; [assumption|]. split; [assumption|].
    intros x v. rewrite Hc.
    assert (Sy : forall w, dget (llayout l) k = Some w <-> says ls (i, k) w).
    { intros w. unfold says; cbn [fst snd]. split; [eauto|]. intros (l' & E1 & E2). congruence. }
    destruct (dget (llayout l) k) as [w|] eqn:Ew.
    - destruct (eqb_spec x (target bm (i, k))) as [->|Nx].
      + split.
        * intros [= <-]. exists (i, k). split; [auto|]. split; [reflexivity|]. now apply Sy.
        * intros (k1 & _ & Et & Hs).
          assert (k1 = (i, k)) as ->.
          { apply (sent_inj Hone (t:=target bm (i, k))); [rewrite <- Et|]; apply target_sent. }
          apply Sy in Hs. congruence.
      + rewrite Hw. split.
        * intros (k1 & Hd & R). exists k1. tauto.
        * intros (k1 & [Hd| ->] & Et & Hs); [eauto|congruence].
    - rewrite Hw. split.
      + intros (k1 & Hd & R). exists k1. tauto.
      + intros (k1 & [Hd| ->] & Et & Hs); [eauto|]. apply Sy in Hs. discriminate.
  Qed.
  Lemma written_ext d d' out : (forall k, d k <-> d' k) -> written d out -> written d' out.
  Proof.
    intros E (A & B & C). split; [assumption|]. split; [assumption|]. intros x v. rewrite C.
    split; intros (k & Hd & R); exists k; (split; [now apply E|assumption]).
  Qed.
  Lemma put_keys_written i l ks : forall done out, nth_error ls i = Some l -> written done out ->
    exists out', foldM (put_key L bm i l) ks out = Ok out' /\
      written (fun x => done x \/ (fst x = i /\ In (snd x) ks)) out' /\
      (forall j, mod_of out' j = mod_of out j).
  Proof.
    induction ks as [|k ks IH]; intros done out Hl W; cbn [foldM].
    - exists out. split; [reflexivity|]. split; [|auto]. eapply written_ext; [|exact W]. cbn; tauto.
    - destruct (put_key_written k Hl W) as (o1 & -> & W1 & M1). cbn [bind].
      destruct (IH _ _ Hl W1) as (o2 & -> & W2 & M2). exists o2. split; [reflexivity|].
      split; [|intros j; now rewrite M2, M1].
      eapply written_ext; [|exact W2]. intros [x1 x2]; cbn. split.
      + intros [[|[= -> ->]]|[-> ?]]; auto.
      + intros [|[-> [->|]]]; auto.
  Qed.
  Lemma put_layer_written done out i l : nth_error ls i = Some l -> written done out ->
    exists out', put_layer ordm L kb bm out (i, l) = Ok out' /\
      written (fun x => done x \/ (fst x = i /\ In (snd x) kb)) out' /\
      (forall j, mod_of out' j = if Nat.eqb j i then option_map (fun ms => ms ++ map ordm (lmods l)) (mod_of out i) else mod_of out j).
  Proof.
    intros Hl W. unfold put_layer. destruct W as (Hlen & Hok & Hw).
    destruct (nth_error out i) as [d|] eqn:Ed.
    2:{ apply nth_error_None in Ed. assert (i < List.length ls) by (apply nth_error_Some; congruence). lia. }
    cbn [of_opt bind].
    set (out1 := upd out i (mkLD (ld_modifier d ++ map ordm (lmods l)) (ld_layer d))).
    assert (W1 : written done out1).
    { split; [unfold out1; now rewrite upd_length|]. split.
      - unfold out1, dicts_ok. apply Forall_forall. intros x Hx. apply In_upd in Hx.
        unfold dicts_ok in Hok; rewrite Forall_forall in Hok. destruct Hx as [->|Hx]; [|auto]. cbn. apply Hok. eapply nth_error_In; eauto.
      - intros x v. rewrite <- Hw. unfold out1. rewrite (cell_of_upd _ _ Ed). cbn [ld_layer].
        destruct (Nat.eqb_spec (fst x) i) as [E|]; [|reflexivity]. unfold cell_of. rewrite E, Ed. reflexivity. }
    destruct (put_keys_written kb Hl W1) as (o2 & E2 & W2 & M2). exists o2. split; [exact E2|].
    split; [assumption|]. intros j. rewrite M2. unfold mod_of, out1. rewrite nth_error_upd', Ed.
    destruct (Nat.eqb j i); reflexivity.
  Qed.

  Definition mods_upto (n : nat) (out : list layer_data) : Prop :=
    forall j l, nth_error ls j = Some l -> mod_of out j = Some (if Nat.ltb j n then map ordm (lmods l) else []).
  Lemma put_layers_written n : n <= List.length ls -> forall out, written (fun _ => False) out -> mods_upto 0 out ->
    exists out', foldM (put_layer ordm L kb bm) (firstn n (enumerate ls)) out = Ok out' /\
      written (fun x => fst x < n /\ In (snd x) kb) out' /\ mods_upto n out'.
  Proof.
    intros Hn out W M. induction n as [|n IH].
    - exists out. split; [reflexivity|]. split; [|assumption]. eapply written_ext; [|exact W]. intros k; split; [tauto|lia].
    - destruct IH as (o1 & E1 & W1 & M1); [lia|].
      assert (Hnth : exists l, nth_error ls n = Some l).
      { destruct (nth_error ls n) eqn:E; [eauto|]. apply nth_error_None in E. lia. }
      destruct Hnth as (l & Hl).
      assert (En : nth_error (enumerate ls) n = Some (n, l)).
      { clear - Hl. unfold enumerate.
        assert (G : forall s (l0 : list layer) n, nth_error l0 n = Some l -> nth_error (combine (seq s (List.length l0)) l0) n = Some (s + n, l)).
        { intros s l0. revert s. induction l0 as [|y l0 IH]; intros s [|m] E; cbn in *; try discriminate.
          - injection E as ->. now rewrite Nat.add_0_r.
          - rewrite (IH (S s) m E). f_equal. f_equal. lia. }
        apply (G 0 ls n Hl). }
      assert (Ef : firstn (S n) (enumerate ls) = firstn n (enumerate ls) ++ [(n, l)]).
      { assert (G : forall (q : list (nat * layer)) i z, nth_error q i = Some z -> firstn (S i) q = firstn i q ++ [z]).
        { clear. induction q as [|y q IH]; intros [|i] z E; cbn in *; try discriminate; [now injection E as ->|].
          f_equal. apply IH. assumption. }
        apply G, En. }
      rewrite Ef, foldM_app, E1. cbn [bind].
      destruct (put_layer_written Hl W1) as (o2 & E2 & W2 & M2).
      change (foldM (put_layer ordm (layout_new ls) kb bm) [(n, l)] o1) with
        (do s' <- put_layer ordm (layout_new ls) kb bm o1 (n, l); Ok s').
      rewrite E2. cbn [bind]. exists o2. split; [reflexivity|]. split.
      + eapply written_ext; [|exact W2]. intros k; cbn. split.
        * intros [[? ?]|[-> ?]]; split; auto; lia.
        * intros [? ?]. destruct (Nat.eq_dec (fst k) n); [right; auto|left; split; [lia|auto]].
      + intros j l' Hj. rewrite M2. destruct (Nat.eqb_spec j n) as [->|Nj].
        * rewrite (M1 _ _ Hl). assert (l' = l) as -> by congruence. rewrite Nat.ltb_irrefl. cbn [option_map app].
          rewrite (proj2 (Nat.ltb_lt n (S n))) by lia. reflexivity.
        * rewrite (M1 _ _ Hj). destruct (Nat.ltb_spec j n), (Nat.ltb_spec j (S n)); auto; lia.
  Qed.

  Theorem new_layers_ok : exists out, new_layers ordm L kb bm = Ok out /\
    List.length out = List.length ls /\ dicts_ok out /\
    (forall j l, nth_error ls j = Some l -> mod_of out j = Some (map ordm (lmods l))) /\
    (forall x v, cell_of out x = Some v <-> exists k, In (snd k) kb /\ sent bm k x /\ says ls k v).
  Proof.
    unfold new_layers. rewrite layout_new_layers.
    set (out0 := map (fun _ => mkLD [] []) ls).
    assert (N0 : forall j, nth_error out0 j = option_map (fun _ => mkLD [] []) (nth_error ls j)) by (intros j; apply nth_error_map).
    assert (W0 : written (fun _ => False) out0).
    { split; [unfold out0; now rewrite map_length|]. split.
      - unfold dicts_ok, out0. apply Forall_map. apply Forall_forall. intros. cbn. constructor.
      - intros x v. unfold cell_of. rewrite N0. destruct (nth_error ls (fst x)); cbn; (split; [discriminate|intros (k & [] & _)]). }
    assert (M0 : mods_upto 0 out0).
    { intros j l Hj. unfold mod_of. rewrite N0, Hj. reflexivity. }
    destruct (@put_layers_written (List.length ls) (le_n _) out0 W0 M0) as (out & E & W & M).
    rewrite firstn_all2 in E by (unfold enumerate; rewrite combine_length, seq_length; lia).
    exists out. split; [exact E|]. destruct W as (A & B & C). split; [assumption|]. split; [assumption|]. split.
    - intros j l Hj. rewrite (M _ _ Hj). assert (j < List.length ls) by (apply nth_error_Some; congruence).
      rewrite (proj2 (Nat.ltb_lt _ _)) by lia. reflexivity.
    - intros x v. rewrite C. split.
      + intros (k & [Hk1 Hk2] & Et & Hs). exists k. split; [assumption|]. split; [rewrite <- Et; apply target_sent|assumption].
      + intros (k & Hk & Hs & Hv). exists k. split; [|split; [now apply sent_target|assumption]]. split; [|assumption].
        destruct Hv as (l & Hl & _). apply nth_error_Some. congruence.
  Qed.
End Output.
