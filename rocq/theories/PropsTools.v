(** C58-C61: further tools working on recorded statistics. *)
From Coq Require Import QArith Qpower Znumtheory Lqa.
From Verif Require Import Base LayoutModel LayoutSpec LayoutProofs WriterModel StatsModel StatsSpec CarpalxModel CarpalxSpec OptModel RenderModel.
From Verif Require Import DataFingermap ShippedProofs StatsProofs MergeProofs StatsAll PropsStats PlotModel PlotSpec PlotProofs.
Close Scope Q_scope.
Close Scope Z_scope.
Open Scope string_scope.
Open Scope list_scope.
Unset Implicit Arguments.

(** * C58: layoutstats *)
Lemma amount_cons {K} (P : K -> bool) kv d : amount P (kv :: d) = ((if P (fst kv) then snd kv else 0) + amount P d)%Z.
Proof. unfold amount. apply sumZ_cons. Qed.
Lemma dget0_cadd {K} `{EqDec K} d k v k' : dget0 (cadd d k v) k' = (dget0 d k' + if eqb k' k then v else 0)%Z.
Proof. unfold cadd, dget0. rewrite dget_dset. destruct (eqb_spec k' k) as [->|N]; lia. Qed.
Lemma NoDup_ways ls t : layers_wf ls -> mods_disjoint ls -> mods_nodup ls -> NoDup (ways ls t).
Proof.
  intros Hw Hd Hn. unfold ways, layers_wf, mods_nodup in *.
  assert (Hd' : forall l l' m, In m (lmods l) -> In m (lmods l') -> forall p s, ls = p ++ l :: s -> ~ In l' s).
  { intros l l' m M M' p s E I. apply In_nth_error in I as [j J].
    assert (length p = length p + S j); [|lia]. apply (Hd _ _ l l' m).
    - rewrite E, nth_error_app2 by lia. rewrite Nat.sub_diag. reflexivity.
    - rewrite E, nth_error_app2 by lia. replace (_ - _) with (S j) by lia. exact J.
    - exact M.
    - exact M'. }
  clear Hd. induction ls as [|l ls IH]; cbn [flat_map]; [constructor|]. inversion Hw; inversion Hn; subst.
  assert (NA : forall {A} (a b : list A), NoDup a -> NoDup b -> (forall x, In x a -> ~ In x b) -> NoDup (a ++ b)).
  { clear. intros A a b. induction 1 as [|x a Nx _ IH]; intros Nb D; [exact Nb|]. cbn [app]. constructor.
    - intros I. apply in_app_or in I as [I|I]; [auto|]. apply (D x); [left; reflexivity|exact I].
    - apply IH; [exact Nb|]. intros y Iy. apply D. right. exact Iy. }
  assert (In_l : forall l c, In c (flat_map (fun bv => match snd bv with CText t' => if eqb t t' then map (fun m => mkComb m (frozenset [fst bv])) (lmods l) else [] | COther => [] end) (llayout l)) ->
    exists b, In b (dkeys (llayout l)) /\ In (cmod c) (lmods l) /\ cbtn c = frozenset [b]).
  { clear. intros l c I. apply in_flat_map in I as ([b v] & Ib & I). cbn [fst snd] in I. destruct v as [t'|]; [|destruct I].
    destruct (eqb t t'); [|destruct I]. apply in_map_iff in I as (m & <- & Im). exists b. split; [apply (in_map fst _ _ Ib)|auto]. }
  apply NA.
  - clear -H1 H5 NA. set (f := fun bv => _). assert (Hf : forall bv c, In c (f bv) -> cbtn c = frozenset [fst bv]).
    { intros [b v] c I. unfold f in I. cbn [fst snd] in *. destruct v as [t'|]; [|destruct I]. destruct (eqb t t'); [|destruct I].
      apply in_map_iff in I as (m & <- & _). reflexivity. }
    assert (Nf : forall bv, NoDup (f bv)).
    { intros [b v]. unfold f. cbn [fst snd]. destruct v as [t'|]; [|constructor]. destruct (eqb t t'); [|constructor].
      apply FinFun.Injective_map_NoDup; [|exact H5]. intros x y E. inversion E. reflexivity. }
    clearbody f. clear H5. unfold dict_wf in H1. induction (llayout l) as [|[b v] d IHd]; cbn [flat_map]; [constructor|].
    cbn in H1. inversion H1; subst. apply NA; [apply Nf|apply IHd; assumption|].
    intros c I I'. apply Hf in I. apply in_flat_map in I' as ([b' v'] & Ib & I'). apply Hf in I'. cbn [fst] in *. rewrite I in I'.
    assert (b = b') as <-.
    { assert (In b (elems (frozenset [b']))) as X by (rewrite <- I'; cbn; auto). cbn in X. destruct X as [X|[]]. congruence. }
    apply H2. apply (in_map fst _ _ Ib).
  - apply IH; [assumption|assumption|]. intros l0 l' m M M' p s E. apply (Hd' l0 l' m M M' (l :: p) s). rewrite E. reflexivity.
  - intros c I I'. apply In_l in I as (b & _ & Mc & _). apply in_flat_map in I' as (l' & Il & I'). apply In_l in I' as (b' & _ & Mc' & _).
    apply (Hd' l l' (cmod c) Mc Mc' [] ls eq_refl Il).
Qed.
Lemma sum_lookup {K} `{EqDec K} (d : list (K * Z)) l : dict_wf d -> NoDup l -> sumZ (dget0 d) l = amount (fun k => mem k l) d.
Proof.
  intros Wf. induction 1 as [|k l Nk _ IH].
  - unfold amount. cbn [mem existsb]. rewrite sumZ_zero. reflexivity.
  - rewrite sumZ_cons, IH. clear IH. unfold dget0. unfold dict_wf in Wf. revert Wf. induction d as [|[k' v] d IH]; intros Wf; [reflexivity|].
    cbn in Wf. inversion Wf; subst. rewrite !amount_cons. cbn [fst snd]. cbn [dget].
    destruct (eqb_spec k k') as [<-|N].
    + assert (mem k (k :: l) = true) as -> by (apply mem_In; left; reflexivity).
      destruct (mem k l) eqn:M; [apply mem_In in M; contradiction|].
      replace (amount (fun x => mem x (k :: l)) d) with (amount (fun x => mem x l) d); [lia|].
      apply amount_ext. intros x Ix. apply eq_true_iff_eq. rewrite !mem_In. cbn [In]. split; [auto|]. intros [<-|I]; [contradiction|exact I].
    + assert (mem k' (k :: l) = mem k' l) as ->.
      { apply eq_true_iff_eq. rewrite !mem_In. cbn [In]. split; [intros [->|I]; [congruence|exact I]|auto]. }
      specialize (IH H3). lia.
Qed.
Lemma ways_amount ls t combs : layers_wf ls -> mods_disjoint ls -> mods_nodup ls -> dict_wf combs -> Forall one_button (dkeys combs) ->
  sumZ (dget0 combs) (ways ls t) = amount (types (layout_new ls) t) combs.
Proof.
  intros Hw Hd Hn Wf Si. rewrite (sum_lookup _ _ Wf (NoDup_ways ls t Hw Hd Hn)). apply amount_ext. intros [m b'] I.
  rewrite Forall_forall in Si. destruct (Si _ I) as [b E]. cbn [cbtn] in E. subst b'.
  apply eq_true_iff_eq. rewrite mem_In, types_spec. apply getText_ways; assumption.
Qed.
Lemma ways_unassigned ls t : ~ assigned ls t -> ways ls t = [].
Proof.
  intros N. destruct (ways ls t) as [|c cs] eqn:E; [reflexivity|]. destruct N. assert (I : In c (ways ls t)) by (rewrite E; left; reflexivity).
  apply in_ways in I as (l & b & m & Hl & Hb & _). exists b, l. auto.
Qed.
Lemma letters_nodup : NoDup (alef :: letterWithHamza).
Proof.
  repeat (constructor; [cbn; intros H; repeat (destruct H as [H|H]; [discriminate H|]); exact H|]). constructor.
Qed.
(** What [combPerGroup] says about [letter]. *)
Lemma group_step_ok ls combs g letter g' : group_step (layout_new ls) combs g letter = Ok g' ->
  forall t, dget0 g' t = (dget0 g t + if eqb t letter then sumZ (dget0 combs) (ways ls letter) else 0)%Z.
Proof.
  unfold group_step. intros E t. apply bind_inv in E as ([m cs] & El & E). cbn [fst snd] in E. apply lookup_ok in El as [La ->].
  destruct (eqb_spec m letter) as [->|N]; inversion E; subst g'; clear E.
  - rewrite dget0_cadd, zsum_sumZ, sumZ_map. reflexivity.
  - destruct (eqb t letter); [|lia]. rewrite ways_unassigned; [cbn; lia|]. intros A. apply N.
    destruct La as (_ & (r & Er) & Max). specialize (Max letter A (ex_intro _ [] (eq_sym (app_nil_r _)))).
    rewrite Er, app_length in Max. assert (r = []) as -> by (destruct r; [reflexivity|cbn in Max; lia]). rewrite Er. symmetry. apply app_nil_r.
Qed.
Lemma groups_ok ls combs letters : NoDup letters -> forall g g', foldM (group_step (layout_new ls) combs) letters g = Ok g' ->
  forall t, dget0 g' t = (dget0 g t + if mem t letters then sumZ (dget0 combs) (ways ls t) else 0)%Z.
Proof.
  induction 1 as [|x l Nx _ IH]; intros g g' E t; cbn [foldM] in E; [inversion E; cbn; lia|].
  apply bind_inv in E as (g1 & E1 & E). rewrite (IH _ _ E t), (group_step_ok _ _ _ _ _ E1 t). cbn [mem existsb].
  destruct (eqb_spec t x) as [->|N]; cbn [orb]; [|lia]. change (existsb (eqb x) l) with (mem x l).
  destruct (mem x l) eqn:M; [apply mem_In in M; contradiction|]. lia.
Qed.
Definition hinv fm (st : list (direction * Z) * list ((direction * finger) * Z)) (bs : list (string * Z)) : Prop :=
  (forall b, In b (dkeys bs) -> In b (dkeys fm)) /\
  (forall h, dget0 (fst st) h = amount (by_hand fm h) bs) /\
  (forall hf, dget0 (snd st) hf = amount (by_finger fm hf) bs) /\
  dict_wf (fst st) /\ dict_wf (snd st) /\
  (forall hf, In hf (dkeys (snd st)) <-> exists b, In b (dkeys bs) /\ by_finger fm hf b = true) /\
  sumZ snd (fst st) = sumZ snd bs /\ sumZ snd (snd st) = sumZ snd bs.
Lemma sum_cadd {K} `{EqDec K} (d : list (K * Z)) k v : sumZ snd (cadd d k v) = (sumZ snd d + v)%Z.
Proof. unfold cadd, dget0. rewrite (sum_dset snd). cbn [snd]. destruct (dget d k); cbn [snd]; lia. Qed.
Lemma hands_ok fm bs' : forall st bs st', hinv fm st bs -> foldM (hand_step fm) bs' st = Ok st' -> hinv fm st' (bs ++ bs').
Proof.
  induction bs' as [|[b v] bs' IH]; intros st bs st' Hi E; cbn [foldM] in E; [inversion E; subst; now rewrite app_nil_r|].
  apply bind_inv in E as (s1 & E1 & E). replace (bs ++ (b, v) :: bs') with ((bs ++ [(b, v)]) ++ bs') by (rewrite <- app_assoc; reflexivity).
  eapply IH; [|exact E]. clear E IH. unfold hand_step in E1. apply bind_inv in E1 as ([h f] & Eh & E1). inversion E1; subst s1; clear E1.
  destruct st as [hs fs]. destruct Hi as (Hf & Hh & Hfi & W1 & W2 & Hk & S1 & S2). cbn [fst snd] in *.
  unfold getHandFinger, dgetM in Eh. destruct (dget fm b) as [hf|] eqn:G; [|discriminate]. cbn in Eh. inversion Eh; subst hf; clear Eh.
  assert (Dk : dkeys (bs ++ [(b, v)]) = dkeys bs ++ [b]) by (unfold dkeys; apply map_app).
  assert (Am : forall P : string -> bool, amount P (bs ++ [(b, v)]) = (amount P bs + if P b then v else 0)%Z).
  { intros P. unfold amount. rewrite sumZ_app. cbn. lia. }
  unfold hinv. cbn [fst snd]. split; [|split; [|split; [|split; [|split; [|split; [|split]]]]]].
  - intros b'. rewrite Dk. intros I. apply in_app_or in I as [I|[<-|[]]]; [auto|]. apply dget_key. eauto.
  - intros h'. rewrite dget0_cadd, Hh, Am. f_equal. unfold by_hand. rewrite G. destruct (eqb_spec h' h), (eq_dec h' h); congruence.
  - intros hf'. rewrite dget0_cadd, Hfi, Am. f_equal. unfold by_finger. rewrite G. destruct (eqb_spec hf' (h, f)), (eq_dec hf' (h, f)); congruence.
  - apply dset_wf, W1.
  - apply dset_wf, W2.
  - intros hf'. unfold cadd. rewrite In_dkeys_dset, Dk, Hk. split.
    + intros [->|(b' & I & B)]; [exists b|exists b'; split; [apply in_or_app; auto|exact B]].
      split; [apply in_or_app; cbn; auto|]. unfold by_finger. rewrite G. destruct (eq_dec _ _); congruence.
    + intros (b' & I & B). apply in_app_or in I as [I|[<-|[]]]; [eauto|]. left. unfold by_finger in B. rewrite G in B. destruct (eq_dec _ _); congruence.
  - rewrite sum_cadd, sumZ_app, S1. cbn. lia.
  - rewrite sum_cadd, sumZ_app, S2. cbn. lia.
Qed.
Lemma hands_run fm bs st : foldM (hand_step fm) bs ([], []) = Ok st -> hinv fm st bs.
Proof.
  intros E. apply (hands_ok fm bs ([], []) []) in E; [exact E|]. unfold hinv. cbn. 
  split; [intros b []|]. split; [reflexivity|]. split; [reflexivity|]. split; [constructor|]. split; [constructor|].
  split; [|split; reflexivity]. intros hf. split; [intros []|intros (b & [] & _)].
Qed.
Lemma dget_touch {K} `{EqDec K} (d : list (K * Z)) k k' : dget (touch d k) k' = if eqb k' k then Some (dget0 d k) else dget d k'.
Proof. unfold touch. apply dget_dset. Qed.
Lemma dget0_touch {K} `{EqDec K} (d : list (K * Z)) k k' : dget0 (touch d k) k' = dget0 d k'.
Proof. unfold dget0 at 1. rewrite dget_touch. destruct (eqb_spec k' k) as [->|N]; reflexivity. Qed.

(** Presses of each hand and finger, as counted; both hands are reported even if
    unused, fingers if used; the parts add up. *)
Theorem C58_hands fm L buttons combs r : layoutstats fm L buttons combs = Ok r ->
  ls_presses r = sumZ snd buttons /\ ls_presses r <> 0%Z /\ (forall b, In b (dkeys buttons) -> In b (dkeys fm)) /\
  (forall h, dget (ls_hands r) h = Some (amount (by_hand fm h) buttons)) /\
  (forall hf, dget (ls_fingers r) hf =
     if existsb (by_finger fm hf) (dkeys buttons) then Some (amount (by_finger fm hf) buttons) else None) /\
  (amount (by_hand fm LEFT) buttons + amount (by_hand fm RIGHT) buttons = ls_presses r)%Z /\
  sumZ snd (ls_fingers r) = ls_presses r /\
  (forall h, amount (by_hand fm h) buttons = sumZ (fun f => amount (by_finger fm (h, f)) buttons) [LITTLE; RING; MIDDLE; INDEX; THUMB]) /\
  (ls_asymmetry r == (inject_Z (amount (by_hand fm LEFT) buttons) - inject_Z (amount (by_hand fm RIGHT) buttons)) / inject_Z (ls_presses r))%Q.
Proof.
  intros E. unfold layoutstats in E. apply bind_inv in E as ([hs fs] & Eh & E). apply bind_inv in E as (l & El & E). apply bind_inv in E as (rt & Er & E).
  apply bind_inv in E as (g & _ & E). apply bind_inv in E as (hi & _ & E). apply bind_inv in E as (ho & _ & E). inversion E; subst r; clear E.
  rewrite zsum_dvals in *. apply truediv_Ok in El as [Nz ->]. apply truediv_Ok in Er as [_ ->].
  destruct (hands_run _ _ _ Eh) as (Hf & Hh & Hfi & W1 & W2 & Hk & S1 & S2). cbn [fst snd ls_presses ls_hands ls_fingers ls_asymmetry] in *.
  split; [reflexivity|]. split; [exact Nz|]. split; [exact Hf|]. split; [|split; [|split; [|split; [|split]]]].
  - intros h. rewrite dget_touch. destruct (eqb_spec h RIGHT) as [->|N]; [rewrite dget0_touch, Hh; reflexivity|].
    rewrite dget_touch. destruct (eqb_spec h LEFT) as [->|N']; [rewrite Hh; reflexivity|]. destruct h; congruence.
  - intros hf. destruct (existsb _ _) eqn:Ex.
    + apply existsb_exists in Ex. apply Hk in Ex. specialize (Hfi hf). unfold dget0 in Hfi. destruct (dget fs hf) eqn:G; [congruence|].
      apply dget_None in G. contradiction.
    + apply dget_None. intros I. apply Hk in I. apply existsb_exists in I. congruence.
  - clear -Hf. induction buttons as [|[b v] bs IH]; [reflexivity|]. rewrite !amount_cons, sumZ_cons. cbn [fst snd].
    assert (In b (dkeys fm)) as I by (apply Hf; left; reflexivity). specialize (IH ltac:(intros; apply Hf; right; assumption)).
    destruct (dget fm b) as [[h f]|] eqn:G; [|apply dget_None in G; contradiction].
    assert (forall h', by_hand fm h' b = if eq_dec h' h then true else false) as B by (intros h'; unfold by_hand; rewrite G; reflexivity).
    rewrite !B. destruct h; cbn [eq_dec]; destruct (eq_dec LEFT _), (eq_dec RIGHT _); try congruence; lia.
  - exact S2.
  - intros h. clear -Hf. induction buttons as [|[b v] bs IH]; [reflexivity|].
    specialize (IH ltac:(intros; apply Hf; right; assumption)). rewrite amount_cons, IH. rewrite !sumZ_cons. change (sumZ _ []) with 0%Z.
    rewrite !amount_cons. cbn [fst snd].
    assert (In b (dkeys fm)) as I by (apply Hf; left; reflexivity).
    destruct (dget fm b) as [[h' f]|] eqn:G; [|apply dget_None in G; contradiction].
    assert (by_hand fm h b = eqb h h') as -> by (unfold by_hand; rewrite G; destruct (eq_dec h h'), (eqb_spec h h'); congruence).
    assert (forall f', by_finger fm (h, f') b = eqb h h' && eqb f' f) as B.
    { intros f'. unfold by_finger. rewrite G. destruct (eq_dec (h, f') (h', f)), (eqb_spec h h'), (eqb_spec f' f); cbn; congruence. }
    rewrite !B. destruct (eqb h h'); cbn [andb]; [|lia]. destruct f; cbn [eqb EqDec_finger]; 
      repeat match goal with |- context [eqb ?a ?b] => destruct (eqb_spec a b); try congruence end; lia.
  - rewrite !Hh. unfold Qdiv. ring.
Qed.
(** With counts that are not negative asymmetry is between -1, all right, and 1. *)
Theorem C58_asymmetry fm L buttons combs r : layoutstats fm L buttons combs = Ok r -> all_counts (fun v => 0 <= v)%Z buttons ->
  (-1 <= ls_asymmetry r <= 1)%Q /\ (ls_asymmetry r == 1 <-> amount (by_hand fm RIGHT) buttons = 0%Z)%Q /\
  (ls_asymmetry r == -1 <-> amount (by_hand fm LEFT) buttons = 0%Z)%Q.
Proof.
  intros E Nn. destruct (C58_hands _ _ _ _ _ E) as (_ & Nz & _ & _ & _ & S & _ & _ & A).
  pose proof (amount_nonneg (by_hand fm LEFT) _ Nn) as Nl. pose proof (amount_nonneg (by_hand fm RIGHT) _ Nn) as Nr.
  set (l := amount (by_hand fm LEFT) buttons) in *. set (q := amount (by_hand fm RIGHT) buttons) in *. set (P := ls_presses r) in *.
  assert (PP : (0 < inject_Z P)%Q) by (apply injQ_pos; lia).
  assert (Sq : (inject_Z l + inject_Z q == inject_Z P)%Q) by (rewrite <- inject_Z_plus, S; reflexivity).
  assert (Lq : (0 <= inject_Z l)%Q) by (change 0%Q with (inject_Z 0); rewrite <- Zle_Qle; exact Nl).
  assert (Rq : (0 <= inject_Z q)%Q) by (change 0%Q with (inject_Z 0); rewrite <- Zle_Qle; exact Nr).
  assert (M : (ls_asymmetry r * inject_Z P == inject_Z l - inject_Z q)%Q) by (rewrite A; field; lra).
  set (a := ls_asymmetry r) in *.
  assert (Z0 : forall z, z = 0%Z <-> (inject_Z z == 0)%Q).
  { intros z. change 0%Q with (inject_Z 0). split; [intros ->; reflexivity|]. apply inject_Z_injective. }
  rewrite !Z0. split; [|split].
  - split; (apply (Qmult_le_r _ _ (inject_Z P) PP)); lra.
  - split; intros H; [rewrite H in M; lra|]. apply (Qmult_inj_r _ _ (inject_Z P)); lra.
  - split; intros H; [rewrite H in M; lra|]. apply (Qmult_inj_r _ _ (inject_Z P)); lra.
Qed.
(** The share of alef, waw and yah with hamza of everything typed, and that of
    alef with hamza of all alef, if typed with one combination. *)
Theorem C58_hamza fm ls buttons combs r : layers_wf ls -> mods_disjoint ls -> mods_nodup ls ->
  dict_wf combs -> Forall one_button (dkeys combs) -> layoutstats fm (layout_new ls) buttons combs = Ok r ->
  let n t := amount (types (layout_new ls) t) combs in
  sumZ snd combs <> 0%Z /\ (n [0x627; 0x654]%N + n [0x627; 0x655]%N + n [0x627]%N)%Z <> 0%Z /\
  (ls_hamzaImpact r == inject_Z (n [0x627; 0x654]%N + n [0x627; 0x655]%N + n [0x64A; 0x654]%N + n [0x648; 0x654]%N)%Z / inject_Z (sumZ snd combs))%Q /\
  (ls_hamzaOnAlef r == inject_Z (n [0x627; 0x654]%N + n [0x627; 0x655]%N)%Z / inject_Z (n [0x627; 0x654]%N + n [0x627; 0x655]%N + n [0x627]%N)%Z)%Q.
Proof.
  intros Hw Hd Hn Wf Si E n. unfold layoutstats in E. apply bind_inv in E as ([hs fs] & _ & E). apply bind_inv in E as (l & _ & E). apply bind_inv in E as (rt & _ & E).
  apply bind_inv in E as (g & Eg & E). apply bind_inv in E as (hi & Ei & E). apply bind_inv in E as (ho & Eo & E). inversion E; subst r; clear E.
  rewrite zsum_dvals in Ei. apply truediv_Ok in Ei as [Nz ->]. apply truediv_Ok in Eo as [No ->].
  assert (G : forall t, In t (alef :: letterWithHamza) -> dget0 g t = n t).
  { intros t I. apply mem_In in I. rewrite (groups_ok ls combs _ letters_nodup _ _ Eg t), I. cbn [dget0 dget]. unfold n.
    rewrite ways_amount by assumption. reflexivity. }
  rewrite !G in No by (cbn; auto 10). cbn [ls_hamzaImpact ls_hamzaOnAlef].
  assert (Ei : zsum (map (dget0 g) letterWithHamza) = (n alefAbove + n alefBelow + n yahAbove + n wawAbove)%Z).
  { rewrite zsum_sumZ, sumZ_map. unfold letterWithHamza. rewrite !sumZ_cons. rewrite !G by (cbn; auto 10). change (sumZ (fun x => dget0 g x) []) with 0%Z. lia. }
  split; [exact Nz|]. split; [exact No|]. split; [rewrite Ei; reflexivity|]. rewrite !G by (cbn; auto 10). reflexivity.
Qed.
Lemma frac_le a b : (0 <= a <= b)%Z -> b <> 0%Z -> (0 <= inject_Z a / inject_Z b <= 1)%Q.
Proof. intros H N. apply frac_bounds; lia. Qed.
Theorem C58_hamza_shares fm ls buttons combs r : layers_wf ls -> mods_disjoint ls -> mods_nodup ls ->
  dict_wf combs -> Forall one_button (dkeys combs) -> layoutstats fm (layout_new ls) buttons combs = Ok r ->
  all_counts (fun v => 0 <= v)%Z combs -> (0 <= ls_hamzaImpact r <= 1 /\ 0 <= ls_hamzaOnAlef r <= 1)%Q.
Proof.
  intros Hw Hd Hn Wf Si E Nn. destruct (C58_hamza _ _ _ _ _ Hw Hd Hn Wf Si E) as (Nz & No & -> & ->).
  assert (P : forall t, (0 <= amount (types (layout_new ls) t) combs)%Z) by (intros t; apply amount_nonneg, Nn).
  assert (U : forall l, NoDup l -> (sumZ (fun t => amount (types (layout_new ls) t) combs) l <= sumZ snd combs)%Z).
  { intros l Nl. unfold amount. rewrite sumZ_swap. apply sumZ_le. intros [c v] I. cbn [fst snd].
    unfold all_counts in Nn. rewrite Forall_forall in Nn. specialize (Nn _ I). cbn [snd] in Nn. clear -Nl Nn.
    induction Nl as [|t l Nt _ IH]; [exact Nn|]. rewrite sumZ_cons. destruct (types (layout_new ls) t c) eqn:T; [|exact IH].
    rewrite (sumZ_ext_in _ (fun _ => 0%Z)); [rewrite sumZ_zero; lia|]. intros t' I. destruct (types (layout_new ls) t' c) eqn:T'; [|reflexivity].
    apply types_spec in T, T'. congruence. }
  split; apply frac_le; auto.
  - pose proof (U letterWithHamza (proj2 (proj1 (NoDup_cons_iff _ _) letters_nodup))) as S. unfold letterWithHamza in S. rewrite !sumZ_cons in S. change (sumZ _ []) with 0%Z in S.
    unfold alefAbove, alefBelow, yahAbove, wawAbove in S.
    pose proof (P [0x627; 0x654]%N). pose proof (P [0x627; 0x655]%N). pose proof (P [0x64A; 0x654]%N). pose proof (P [0x648; 0x654]%N). lia.
  - pose proof (P [0x627; 0x654]%N). pose proof (P [0x627; 0x655]%N). pose proof (P [0x627]%N). lia.
Qed.
(** There is a result exactly if all buttons have a finger, the counts divided by
    are not zero and the layout has a key for the start of every letter. *)
Theorem C58_succeeds fm ls buttons combs : layers_wf ls -> mods_disjoint ls -> mods_nodup ls ->
  dict_wf combs -> Forall one_button (dkeys combs) ->
  ((exists r, layoutstats fm (layout_new ls) buttons combs = Ok r) <->
   (forall b, In b (dkeys buttons) -> In b (dkeys fm)) /\ sumZ snd buttons <> 0%Z /\ sumZ snd combs <> 0%Z /\
   sumZ (fun t => amount (types (layout_new ls) t) combs) [alefAbove; alefBelow; alef] <> 0%Z /\
   Forall (fun t => ~ unmapped ls t) (alef :: letterWithHamza)).
Proof.
  intros Hw Hd Hn Wf Si. split.
  - intros (r & E). destruct (C58_hands _ _ _ _ _ E) as (P & Nz & Hf & _). destruct (C58_hamza _ _ _ _ _ Hw Hd Hn Wf Si E) as (Nc & No & _).
    rewrite P in Nz. split; [exact Hf|]. split; [exact Nz|]. split; [exact Nc|]. split.
    { rewrite !sumZ_cons. change (sumZ _ []) with 0%Z. rewrite Z.add_0_r, Z.add_assoc. exact No. }
    unfold layoutstats in E. apply bind_inv in E as ([hs fs] & _ & E). apply bind_inv in E as (l & _ & E). apply bind_inv in E as (rt & _ & E).
    apply bind_inv in E as (g & Eg & _). revert Eg. generalize (@nil (text * Z)). generalize (alef :: letterWithHamza). clear.
    induction l as [|t l IH]; intros g0 E; [constructor|]. cbn [foldM] in E. apply bind_inv in E as (g1 & E1 & E). constructor; [|eapply IH, E].
    unfold group_step in E1. apply bind_inv in E1 as (mc & El & _). intros U. 
    assert (lookup (layout_new ls) t = Raise KeyError) as X by (apply lookup_error; auto). congruence.
  - intros (Hf & Nb & Nc & No & Um). unfold layoutstats. rewrite !zsum_dvals.
    assert (exists st, foldM (hand_step fm) buttons ([], []) = Ok st) as [[hs fs] ->].
    { clear -Hf. generalize (@nil (direction * Z), @nil (direction * finger * Z)). induction buttons as [|[b v] bs IH]; intros st; cbn [foldM]; [eauto|].
      unfold hand_step at 1. unfold getHandFinger, dgetM. cbn [fst snd].
      destruct (dget fm b) as [hf|] eqn:G; [|apply dget_None in G; destruct G; apply Hf; left; reflexivity].
      cbn [of_opt bind]. apply IH. intros b' I. apply Hf. right. exact I. }
    cbn [bind]. rewrite !truediv_ok by exact Nb. cbn [bind].
    assert (exists g, foldM (group_step (layout_new ls) combs) (alef :: letterWithHamza) [] = Ok g) as [g Eg].
    { clear -Um. revert Um. generalize (@nil (text * Z)). generalize (alef :: letterWithHamza). induction l as [|t l IH]; intros g F; cbn [foldM]; [eauto|].
      inversion F; subst. unfold group_step at 1. destruct (lookup (layout_new ls) t) as [[m' cs]|e] eqn:El.
      - cbn [bind fst snd]. destruct (eqb m' t); cbn [bind]; apply IH; assumption.
      - apply lookup_error in El as [_ U]. contradiction. }
    rewrite Eg. cbn [bind]. rewrite truediv_ok by exact Nc. cbn [bind].
    rewrite truediv_ok; [cbn [bind]; eauto|].
    assert (G : forall t, In t (alef :: letterWithHamza) -> dget0 g t = amount (types (layout_new ls) t) combs).
    { intros t I. apply mem_In in I. rewrite (groups_ok ls combs _ letters_nodup _ _ Eg t), I.
      rewrite ways_amount by assumption. reflexivity. }
    rewrite !G by (cbn; auto 10). rewrite !sumZ_cons in No. change (sumZ _ []) with 0%Z in No. lia.
Qed.
(** A layout with two keys for alef with hamza above and three keys without. *)
Definition ex_hamza : list layer :=
  [mkLayer [frozenset []] [("Dl1", CText alef); ("Dl2", CText alefAbove); ("Cr3", CText [0x648]%N); ("Cr4", CText [0x64A]%N)];
   mkLayer [frozenset ["El_shift"]; frozenset ["Er_shift"]] [("Dl1", CText alefAbove); ("Cr3", CText wawAbove)]].
Definition ex_fingers : list (string * (direction * finger)) :=
  [("Dl1", (LEFT, INDEX)); ("Dl2", (LEFT, MIDDLE)); ("Cr3", (RIGHT, INDEX)); ("Cr4", (RIGHT, INDEX));
   ("El_shift", (LEFT, LITTLE)); ("Er_shift", (RIGHT, LITTLE))].
Definition ex_presses : list (string * Z) := [("Dl1", 7); ("Dl2", 1); ("Cr3", 4); ("Er_shift", 3)]%Z.
Definition ex_combs : list (comb * Z) :=
  [(mkComb (frozenset []) (frozenset ["Dl1"]), 5); (mkComb (frozenset ["Er_shift"]) (frozenset ["Dl1"]), 2);
   (mkComb (frozenset []) (frozenset ["Dl2"]), 1); (mkComb (frozenset ["Er_shift"]) (frozenset ["Cr3"]), 1);
   (mkComb (frozenset []) (frozenset ["Cr3"]), 3)]%Z.
Example C58_example :
  layers_wf ex_hamza /\ mods_disjoint ex_hamza /\ mods_nodup ex_hamza /\ dict_wf ex_combs /\ Forall one_button (dkeys ex_combs) /\
  match layoutstats ex_fingers (layout_new ex_hamza) ex_presses ex_combs with
  | Ok r => ls_presses r = 15%Z /\ ls_hands r = [(LEFT, 8); (RIGHT, 7)]%Z /\
      ls_fingers r = [((LEFT, INDEX), 7); ((LEFT, MIDDLE), 1); ((RIGHT, INDEX), 4); ((RIGHT, LITTLE), 3)]%Z /\
      Qred (ls_asymmetry r) = (1 # 15)%Q /\ Qred (ls_hamzaImpact r) = (1 # 3)%Q /\ Qred (ls_hamzaOnAlef r) = (3 # 8)%Q
  | Raise _ => False
  end.
Proof.
  split; [apply layers_wfb_ok; reflexivity|]. split; [apply mods_disjointb_ok; reflexivity|].
  split; [repeat constructor; cbn; intros H; repeat (destruct H as [H|H]; [discriminate H|]); exact H|].
  split; [apply nodupb_NoDup; vm_compute; reflexivity|].
  split; [repeat constructor; eexists; reflexivity|].
  vm_compute. repeat split.
Qed.
(** A modifier listed twice makes the combinations count twice. *)
Theorem C58_hamza_needs_nodup : exists fm ls buttons combs,
  layers_wf ls /\ mods_disjoint ls /\ dict_wf combs /\ Forall one_button (dkeys combs) /\ all_counts (fun v => 0 < v)%Z combs /\
  match layoutstats fm (layout_new ls) buttons combs with Ok r => (1 < ls_hamzaImpact r)%Q | Raise _ => False end.
Proof.
  exists ex_fingers, [mkLayer [frozenset []; frozenset []] [("Dl1", CText alefAbove); ("Cr3", CText yahAbove); ("Cr4", CText wawAbove); ("Dl2", CText alef)]],
    [("Dl1", 1%Z)], [(mkComb (frozenset []) (frozenset ["Dl1"]), 1%Z)].
  split; [apply layers_wfb_ok; reflexivity|]. split; [apply mods_disjointb_ok; reflexivity|].
  split; [apply nodupb_NoDup; vm_compute; reflexivity|]. split; [repeat constructor; eexists; reflexivity|].
  split; [repeat constructor|]. vm_compute. reflexivity.
Qed.

(** * C59: the heatmap of keys *)
Lemma heat_fold l : forall d, foldM (fun d kv => do _ <- assert_ (negb (mem (fst kv) ["total"; "buttons"])); Ok (dset d (fst kv) (snd kv))) l d =
  if existsb (fun kv : string * Z => mem (fst kv) ["total"; "buttons"]) l then Raise AssertionError
  else Ok (fold_left (fun d kv => dset d (fst kv) (snd kv)) l d).
Proof.
  induction l as [|[k v] l IH]; intros d; cbn [foldM existsb fold_left]; [reflexivity|]. cbn [fst snd].
  destruct (mem k ["total"; "buttons"]); [reflexivity|]. cbn [negb assert_ bind orb]. apply IH.
Qed.
Lemma dset_new {K V} `{EqDec K} (d : list (K * V)) k v : ~ In k (dkeys d) -> dset d k v = d ++ [(k, v)].
Proof.
  induction d as [|[k' v'] d IH]; intros N; cbn [dset app]; [reflexivity|]. destruct (eqb_spec k k') as [->|D].
  - destruct N. left. reflexivity.
  - rewrite IH; [reflexivity|]. intros I. apply N. right. exact I.
Qed.
Lemma dset_all {K V} `{EqDec K} (l d : list (K * V)) : NoDup (dkeys d ++ dkeys l) -> fold_left (fun d kv => dset d (fst kv) (snd kv)) l d = d ++ l.
Proof.
  revert d. induction l as [|[k v] l IH]; intros d N; cbn [fold_left]; [now rewrite app_nil_r|]. cbn [fst snd].
  assert (~ In k (dkeys d)) as Nk.
  { cbn [dkeys map] in N. apply NoDup_remove_2 in N. intros I. apply N, in_or_app. left. exact I. }
  rewrite (dset_new _ _ _ Nk), IH; [rewrite <- app_assoc; reflexivity|].
  unfold dkeys in *. rewrite map_app. cbn [map fst]. rewrite <- app_assoc. exact N.
Qed.
(** The heatmap has the number of presses of every button, by increasing number,
    and of all together. *)
Theorem C59_heatmap buttons h : dict_wf buttons -> keyHeatmap buttons = Ok h ->
  h_total h = sumZ snd buttons /\ sorting (fun a b => (snd a <=? snd b)%Z) buttons (h_buttons h).
Proof.
  intros Wf E. unfold keyHeatmap in E. rewrite heat_fold in E. destruct (existsb _ _); [discriminate|]. cbn [bind] in E. inversion E; subst h; clear E.
  cbn [h_total h_buttons]. split; [apply zsum_dvals|].
  pose proof (sorted_by_ok (fun a b : string * Z => (snd a <=? snd b)%Z) (leb_by_total snd) (leb_by_trans snd) buttons) as (P & S & F).
  rewrite dset_all; [exact (conj P (conj S F))|]. apply (Permutation_NoDup (Permutation_map fst (Permutation_sym P))), Wf.
Qed.
(** The assertion is about the names of the result's own two keys: these, and no
    others, are refused as names of buttons. *)
Theorem C59_fails buttons e : keyHeatmap buttons = Raise e <-> e = AssertionError /\ exists b, In b (dkeys buttons) /\ In b ["total"; "buttons"].
Proof.
  unfold keyHeatmap. rewrite heat_fold.
  assert (X : existsb (fun kv : string * Z => mem (fst kv) ["total"; "buttons"]) (sorted_by (fun a b => (snd a <=? snd b)%Z) buttons) = true <->
    exists b, In b (dkeys buttons) /\ In b ["total"; "buttons"]).
  { rewrite existsb_exists. split.
    - intros ([b v] & I & M). apply (Permutation_in _ (sorted_by_perm _ _)) in I. exists b. split; [apply (in_map fst _ _ I)|apply mem_In, M].
    - intros (b & I & M). apply in_map_iff in I as ([b' v] & <- & I). exists (b', v). split; [|apply mem_In, M].
      apply (Permutation_in _ (Permutation_sym (sorted_by_perm _ _))), I. }
  destruct (existsb _ _).
  - cbn [bind]. split; [intros H; inversion H; subst; tauto|intros [-> _]; reflexivity].
  - cbn [bind]. split; [discriminate|]. intros [_ H]. apply X in H. discriminate.
Qed.
Lemma max_fold l : forall v, (forall x, In x (v :: l) -> x <= fold_left Z.max l v)%Z /\ In (fold_left Z.max l v) (v :: l).
Proof.
  induction l as [|y l IH]; intros v; cbn [fold_left]; [split; [intros x [<-|[]]; lia|left; reflexivity]|].
  destruct (IH (Z.max v y)) as [U I]. split.
  - intros x [<-|[<-|Ix]]; [|..|apply U; right; exact Ix]; specialize (U (Z.max v y) (or_introl eq_refl)); lia.
  - destruct I as [E|I]; [|right; right; exact I]. rewrite <- E. destruct (Z.max_spec v y) as [[_ ->]|[_ ->]]; cbn; auto.
Qed.
(** Rendering divides by the highest number: all buttons get a value in (0, 1],
    proportional to the presses, the most used one gets 1. *)
Theorem C59_heat h l : key_heat h = Ok l -> all_counts (fun v => 0 < v)%Z (h_buttons h) ->
  map fst l = dkeys (h_buttons h) /\ Forall (fun bq => 0 < snd bq <= 1)%Q l /\ (exists b q, In (b, q) l /\ (q == 1)%Q) /\
  exists top, (0 < top)%Z /\ Forall2 (fun bv bq => (snd bq * inject_Z top == inject_Z (snd bv))%Q) (h_buttons h) l.
Proof.
  intros E Pos. unfold key_heat in E. apply bind_inv in E as (top & Et & E).
  assert (T : (forall x, In x (dvals (h_buttons h)) -> x <= top)%Z /\ In top (dvals (h_buttons h))).
  { destruct (dvals (h_buttons h)) as [|v vs]; [discriminate|]. inversion Et; subst top. apply max_fold. }
  clear Et. destruct T as [U I]. unfold all_counts in Pos. rewrite Forall_forall in Pos.
  apply in_map_iff in I as ([b0 v0] & Ev & I0). cbn [snd] in Ev. subst v0. pose proof (Pos _ I0) as P0. cbn [snd] in P0.
  apply mapM_Ok_inv in E.
  assert (F : Forall2 (fun bv bq => fst bq = fst bv /\ snd bq = (inject_Z (snd bv) / inject_Z top)%Q) (h_buttons h) l).
  { clear -E. induction E as [|[b v] bq l' l H _ IH]; constructor; [|exact IH]. apply bind_inv in H as (q & Eq & H). inversion H; subst bq. cbn [fst snd] in *.
    apply truediv_Ok in Eq as [_ ->]. auto. }
  clear E. set (d := h_buttons h) in *. clearbody d. split; [|split; [|split]].
  - clear -F. induction F as [|[b v] bq l' l [H _] _ IH]; cbn [map dkeys]; [reflexivity|]. cbn [fst] in *. rewrite H. f_equal. exact IH.
  - apply Forall_forall. intros bq I. clear -F I Pos U P0. induction F as [|bv bq' l' l [_ H] _ IH]; [destruct I|]. destruct I as [<-|I].
    + rewrite H. specialize (Pos bv (or_introl eq_refl)). cbn in Pos. specialize (U (snd bv) (or_introl eq_refl)). split.
      * unfold Qdiv. apply Qmult_lt_0_compat; [apply injQ_pos, Pos|apply Qinv_lt_0_compat, injQ_pos, P0].
      * apply frac_bounds; lia.
    + apply IH; [intros x Ix; apply Pos; right; exact Ix| |exact I]. intros x Ix. apply U. right. exact Ix.
  - clear -F I0 P0. induction F as [|bv bq l' l [H1 H] _ IH]; [destruct I0|]. destruct I0 as [->|I0].
    + exists (fst bq), (snd bq). split; [left; destruct bq; reflexivity|]. rewrite H. cbn [snd]. unfold Qdiv. apply Qmult_inv_r. apply injQ_nz. lia.
    + destruct (IH I0) as (b & q & Ib & Hq). exists b, q. split; [right; exact Ib|exact Hq].
  - exists top. split; [exact P0|]. clear -F P0. induction F as [|bv bq l' l [_ H] _ IH]; constructor; [|exact IH]. rewrite H. field.
    apply injQ_nz. lia.
Qed.
(** There is nothing to divide by if there are no buttons or none was pressed. *)
Theorem C59_heat_fails h e : key_heat h = Raise e <->
  (e = ValueError /\ h_buttons h = []) \/
  (e = ZeroDivisionError /\ In 0%Z (dvals (h_buttons h)) /\ forall v, In v (dvals (h_buttons h)) -> (v <= 0)%Z).
Proof.
  unfold key_heat. destruct (h_buttons h) as [|[b v] d] eqn:Eh; cbn [dvals map bind].
  - split; [intros H; inversion H; auto|]. intros [[-> _]|[_ [[] _]]]. reflexivity.
  - cbn [snd]. destruct (max_fold (map snd d) v) as [U I]. set (top := fold_left Z.max (map snd d) v) in *. cbn [mapM fst snd].
    destruct (Z.eq_dec top 0) as [Z|N].
    + unfold truediv at 1. rewrite Z. cbn [Z.eqb bind]. split.
      * intros H. inversion H. right. split; [reflexivity|]. rewrite Z in I, U. split; [exact I|exact U].
      * intros [[_ X]|[-> _]]; [discriminate X|reflexivity].
    + rewrite truediv_ok by exact N. cbn [bind]. split.
      * intros H. exfalso. assert (exists r, mapM (fun kv : string * Z => do q <- truediv (snd kv) top; Ok (fst kv, q)) d = Ok r) as [r Er].
        { clearbody top. clear -N. induction d as [|[b' v'] d [r IH]]; cbn [mapM]; [eauto|]. cbn [fst snd]. rewrite truediv_ok by exact N. cbn [bind]. rewrite IH. cbn. eauto. }
        rewrite Er in H. discriminate.
      * intros [[_ X]|[_ [I0 L]]]; [discriminate X|]. exfalso. specialize (U 0%Z I0). specialize (L top I). lia.
Qed.
Example C59_example :
  match keyHeatmap [("Dl1", 7); ("Bl2", 1); ("Cr3", 4); ("Cr4", 4)]%Z with
  | Ok h => h_total h = 16%Z /\ h_buttons h = [("Bl2", 1); ("Cr3", 4); ("Cr4", 4); ("Dl1", 7)]%Z /\
      key_heat h = Ok [("Bl2", 1 # 7); ("Cr3", 4 # 7); ("Cr4", 4 # 7); ("Dl1", 7 # 7)]%Q
  | Raise _ => False
  end.
Proof. vm_compute. repeat split. Qed.

(** * C60: word frequencies for LatinIME *)
(** [j] is the nearest integer to the logarithm of total/count to base 1.15. *)
Definition far (j : nat) (count total : Z) : bool := negb (total * total * 20 ^ (2 * Z.of_nat j + 1) <=? count * count * 23 ^ (2 * Z.of_nat j + 1))%Z.
Lemma neg_log_spec c t fuel : forall j, (exists n, n < fuel /\ far (j + n) c t = false) ->
  let r := neg_log115 fuel j c t in j <= r /\ far r c t = false /\ forall i, j <= i < r -> far i c t = true.
Proof.
  induction fuel as [|fuel IH]; intros j (n & Ln & Hn); [lia|]. cbn [neg_log115].
  destruct (_ <=? _)%Z eqn:E.
  - split; [lia|]. split; [unfold far; rewrite E; reflexivity|]. intros i Hi. lia.
  - assert (Fj : far j c t = true) by (unfold far; rewrite E; reflexivity).
    destruct n as [|n]; [rewrite Nat.add_0_r in Hn; congruence|].
    destruct (IH (S j)) as (A & B & C); [exists n; split; [lia|rewrite <- Hn; f_equal; lia]|]. split; [lia|]. split; [exact B|].
    intros i Hi. destruct (Nat.eq_dec i j) as [->|N]; [exact Fj|apply C; lia].
Qed.
Lemma pow_growth n : (2 ^ Z.of_nat n * 20 ^ (5 * Z.of_nat n) <= 23 ^ (5 * Z.of_nat n))%Z.
Proof.
  induction n as [|n IH]; [reflexivity|]. rewrite Nat2Z.inj_succ, Z.pow_succ_r by lia. replace (5 * Z.succ (Z.of_nat n))%Z with (5 + 5 * Z.of_nat n)%Z by lia.
  rewrite !Z.pow_add_r by lia. change (20 ^ 5)%Z with 3200000%Z. change (23 ^ 5)%Z with 6436343%Z.
  pose proof (Z.pow_nonneg 20 (5 * Z.of_nat n) ltac:(lia)). pose proof (Z.pow_nonneg 23 (5 * Z.of_nat n) ltac:(lia)). nia.
Qed.
Lemma far_end c t : (0 < c)%Z -> (0 < t)%Z -> far (5 * Z.to_nat (Z.log2 t + 1)) c t = false.
Proof.
  intros Hc Ht. unfold far. apply negb_false_iff, Z.leb_le. set (n := Z.to_nat (Z.log2 t + 1)).
  pose proof (Z.log2_nonneg t) as L0. pose proof (Z.log2_spec t Ht) as [_ L]. replace (Z.succ (Z.log2 t)) with (Z.of_nat n) in L by lia.
  pose proof (pow_growth (n + n)) as G. rewrite Nat2Z.inj_add in G. rewrite Z.pow_add_r in G by lia.
  replace (2 * Z.of_nat (5 * n) + 1)%Z with (1 + 5 * (Z.of_nat n + Z.of_nat n))%Z by lia. rewrite !(Z.pow_add_r _ 1) by lia. rewrite !Z.pow_1_r.
  set (a := (20 ^ (5 * (Z.of_nat n + Z.of_nat n)))%Z) in *. set (b := (23 ^ (5 * (Z.of_nat n + Z.of_nat n)))%Z) in *. set (p := (2 ^ Z.of_nat n)%Z) in *.
  assert (0 <= a)%Z by (apply Z.pow_nonneg; lia).
  assert (t * t * a <= b)%Z by (transitivity (p * p * a)%Z; [apply Z.mul_le_mono_nonneg_r; nia|exact G]).
  assert (1 <= c * c)%Z by nia. assert (0 <= b)%Z by (apply Z.pow_nonneg; lia).
  transitivity (20 * b)%Z; [nia|]. transitivity (1 * (23 * b))%Z; [lia|]. apply Z.mul_le_mono_nonneg_r; lia.
Qed.
Lemma far_mono c c' t j : (0 <= c <= c')%Z -> far j c' t = true -> far j c t = true.
Proof.
  unfold far. rewrite !negb_true_iff, !Z.leb_gt. intros H L. eapply Z.le_lt_trans; [|exact L].
  apply Z.mul_le_mono_nonneg_r; [apply Z.pow_nonneg; lia|nia].
Qed.
Lemma f_value_spec c t f : f_value c t = Ok f -> (0 < t)%Z -> exists j, f = (255 - Z.of_nat j)%Z /\ (0 < c)%Z /\
  far j c t = false /\ forall i, i < j -> far i c t = true.
Proof.
  unfold f_value. intros E Ht. destruct (t =? 0)%Z; [discriminate|]. destruct (c <=? 0)%Z eqn:Ec; [discriminate|]. inversion E. clear E.
  assert (Hc : (0 < c)%Z) by lia. pose proof (Z.log2_nonneg t) as L0.
  destruct (neg_log_spec c t (Z.to_nat (8 * (Z.log2 t + 1))) 0) as (_ & A & B).
  { exists (5 * Z.to_nat (Z.log2 t + 1)). split; [lia|]. apply far_end; assumption. }
  eexists. split; [reflexivity|]. split; [exact Hc|]. split; [exact A|]. intros i Hi. apply B. split; [lia|exact Hi].
Qed.
Lemma base115_nat n : (0 <= n)%Z -> (base115 n == inject_Z (23 ^ n) / inject_Z (20 ^ n))%Q.
Proof.
  intros Hn. unfold base115. rewrite (Zpower_Qpower 23 n Hn), (Zpower_Qpower 20 n Hn), <- Qdiv_power. apply Qpower_comp; reflexivity.
Qed.
Lemma scaled c t n : (0 < t)%Z -> (0 <= n)%Z -> let p := (inject_Z c / inject_Z t)%Q in
  (p * p * base115 n == inject_Z (c * c * 23 ^ n) / inject_Z (t * t * 20 ^ n))%Q.
Proof.
  intros Ht Hn p. unfold p. rewrite (base115_nat n Hn), !inject_Z_mult. field.
  split; apply injQ_nz; [|lia]. assert (0 < 20 ^ n)%Z by (apply Z.pow_pos_nonneg; lia). lia.
Qed.
Lemma far_false c t j : (0 < t)%Z -> let p := (inject_Z c / inject_Z t)%Q in far j c t = false <-> (1 <= p * p * base115 (2 * Z.of_nat j + 1))%Q.
Proof.
  intros Ht p. unfold p. rewrite (scaled c t (2 * Z.of_nat j + 1) Ht ltac:(lia)). unfold far. rewrite negb_false_iff, Z.leb_le.
  set (a := (c * c * _)%Z). set (b := (t * t * _)%Z).
  assert (0 < b)%Z. { assert (0 < 20 ^ (2 * Z.of_nat j + 1))%Z by (apply Z.pow_pos_nonneg; lia). unfold b. nia. }
  rewrite (Zle_Qle b a). assert (0 < inject_Z b)%Q by (apply injQ_pos; assumption). split; intros L.
  - apply Qle_shift_div_l; [assumption|]. lra.
  - apply (Qmult_le_compat_r _ _ (inject_Z b)) in L; [|lra]. unfold Qdiv in L. rewrite <- Qmult_assoc, (Qmult_comm (/ _)), Qmult_inv_r in L by lra. lra.
Qed.
(** f is the nearest integer to 255 + log_1.15 p: p = 1.15^(f-255) up to a factor
    of at most the square root of 1.15. *)
Theorem C60_f_value count total f : (0 < count <= total)%Z -> f_value count total = Ok f ->
  let p := (inject_Z count / inject_Z total)%Q in
  (f <= 255)%Z /\ (1 <= p * p * base115 (2 * (255 - f) + 1))%Q /\ (p * p * base115 (2 * (255 - f) - 1) <= 1)%Q.
Proof.
  intros H E p. assert (Ht : (0 < total)%Z) by lia. apply f_value_spec in E as (j & -> & _ & Fj & Fi); [|exact Ht].
  split; [lia|]. replace (255 - (255 - Z.of_nat j))%Z with (Z.of_nat j) by lia. split; [apply far_false; assumption|].
  destruct j as [|j].
  - change (base115 (2 * Z.of_nat 0 - 1)) with (20 # 23)%Q. pose proof (frac_bounds count total ltac:(lia) Ht) as B. fold p in B. nra.
  - specialize (Fi j ltac:(lia)). replace (2 * Z.of_nat (S j) - 1)%Z with (2 * Z.of_nat j + 1)%Z by lia.
    destruct (Qlt_le_dec (p * p * base115 (2 * Z.of_nat j + 1)) 1) as [L|L]; [lra|]. apply (far_false count total j Ht) in L. congruence.
Qed.
(** No other value has this property. *)
Theorem C60_nearest count total f g : (0 < count <= total)%Z -> f_value count total = Ok f -> (g <= 255)%Z ->
  let p := (inject_Z count / inject_Z total)%Q in
  (1 <= p * p * base115 (2 * (255 - g) + 1))%Q -> (p * p * base115 (2 * (255 - g) - 1) < 1)%Q -> g = f.
Proof.
  intros H E Hg p L U. assert (Ht : (0 < total)%Z) by lia. apply f_value_spec in E as (j & -> & _ & Fj & Fi); [|exact Ht].
  replace (255 - g)%Z with (Z.of_nat (Z.to_nat (255 - g))) in * by lia. set (k := Z.to_nat (255 - g)) in *. apply (far_false count total k Ht) in L.
  assert (k <= j -> k = j) as X. { intros Lk. destruct (Nat.eq_dec k j) as [->|N]; [reflexivity|]. specialize (Fi k ltac:(lia)). congruence. }
  enough (k <= j) by (specialize (X ltac:(assumption)); lia). destruct (Nat.le_gt_cases k j) as [|Gt]; [assumption|exfalso].
  assert (Mono : forall i n, far i count total = false -> far (i + n) count total = false).
  { clear -Ht. intros i n F. unfold far in *. rewrite negb_false_iff, Z.leb_le in *. replace (2 * Z.of_nat (i + n) + 1)%Z with (2 * Z.of_nat i + 1 + 2 * Z.of_nat n)%Z by lia.
    rewrite !(Z.pow_add_r _ (2 * Z.of_nat i + 1)) by lia. rewrite !Z.mul_assoc.
    assert (20 ^ (2 * Z.of_nat n) <= 23 ^ (2 * Z.of_nat n))%Z by (apply Z.pow_le_mono_l; lia).
    assert (0 <= 20 ^ (2 * Z.of_nat n))%Z by (apply Z.pow_nonneg; lia). apply Z.mul_le_mono_nonneg; auto.
    apply Z.mul_nonneg_nonneg; [nia|apply Z.pow_nonneg; lia]. }
  pose proof (Mono j (k - 1 - j) Fj) as F. replace (j + (k - 1 - j)) with (k - 1) in F by lia. apply (far_false count total (k - 1) Ht) in F.
  replace (2 * Z.of_nat (k - 1) + 1)%Z with (2 * Z.of_nat k - 1)%Z in F by lia. fold p in F. lra.
Qed.
(** More frequent words do not get smaller values... *)
Theorem C60_monotone c c' total f f' : (0 < total)%Z -> (c <= c')%Z -> f_value c total = Ok f -> f_value c' total = Ok f' -> (f <= f')%Z.
Proof.
  intros Ht L E E'. apply f_value_spec in E as (j & -> & Pc & Fj & _); [|exact Ht]. apply f_value_spec in E' as (j' & -> & _ & _ & Fi); [|exact Ht].
  enough (j' <= j) by lia. destruct (Nat.le_gt_cases j' j) as [|G]; [assumption|exfalso]. specialize (Fi j G).
  apply (far_mono c) in Fi; [congruence|lia].
Qed.
(** ... and none gets a negative one in a corpus of up to 3 * 10^15 words. *)
Theorem C60_nonneg count total f : (0 < count)%Z -> (0 < total <= 3 * 10 ^ 15)%Z -> f_value count total = Ok f -> (0 <= f)%Z.
Proof.
  intros Hc Ht E. apply f_value_spec in E as (j & -> & _ & _ & Fi); [|lia].
  enough (j <= 255) by lia. destruct (Nat.le_gt_cases j 255) as [|G]; [assumption|exfalso]. specialize (Fi 255 G).
  unfold far in Fi. apply negb_true_iff, Z.leb_gt in Fi. change (2 * Z.of_nat 255 + 1)%Z with 511%Z in Fi.
  assert (X : (3 * 10 ^ 15 * (3 * 10 ^ 15) * 20 ^ 511 <= 23 ^ 511)%Z) by (apply Z.leb_le; vm_compute; reflexivity).
  set (a := (20 ^ 511)%Z) in *. set (b := (23 ^ 511)%Z) in *. assert (0 <= a)%Z by (apply Z.pow_nonneg; lia). assert (0 <= b)%Z by (apply Z.pow_nonneg; lia).
  clearbody a b. set (M := (3 * 10 ^ 15)%Z) in *. clearbody M.
  assert (total * total * a <= M * M * a)%Z by (apply Z.mul_le_mono_nonneg_r; nia). assert (1 * b <= count * count * b)%Z by (apply Z.mul_le_mono_nonneg_r; nia). lia.
Qed.
(** The dictionary: every word once, the most frequent first. *)
Theorem C60_dictionary words l : latinIme words = Ok l ->
  Permutation (map fst l) (dkeys words) /\
  Forall (fun wf => exists count, In (fst wf, count) words /\ f_value count (sumZ snd words) = Ok (snd wf)) l /\
  ((0 < sumZ snd words)%Z -> StronglySorted (fun a b => snd b <= snd a)%Z l).
Proof.
  intros E. unfold latinIme in E. rewrite zsum_dvals in E. set (T := sumZ snd words) in *.
  pose proof (sorted_by_ok (fun a b : text * Z => (snd b <=? snd a)%Z) (fun x y => leb_by_total snd y x)
    (fun x y z H1 H2 => leb_by_trans snd z y x H2 H1) words) as (P & S & _).
  set (sw := sorted_by _ words) in *. clearbody sw. apply mapM_Ok_inv in E.
  assert (F : Forall2 (fun wc wf => fst wf = fst wc /\ f_value (snd wc) T = Ok (snd wf)) sw l).
  { clear -E. induction E as [|wc wf sw l H _ IH]; constructor; [|exact IH]. apply bind_inv in H as (f & Ef & H). inversion H; subst. auto. }
  clear E. split; [|split].
  - transitivity (map fst sw); [|apply Permutation_map, P]. clear -F. induction F as [|wc wf sw l [H _] _ IH]; cbn [map]; [constructor|].
    rewrite H. apply perm_skip, IH.
  - assert (I : forall x, In x sw -> In x words) by (intros x; apply Permutation_in, P). clear -F I.
    induction F as [|wc wf sw l [H H'] _ IH]; constructor; [|apply IH; intros x Ix; apply I; right; exact Ix].
    exists (snd wc). rewrite H. split; [|exact H']. destruct wc. apply I. left. reflexivity.
  - intros HT. clearbody T. clear P. induction F as [|wc wf sw l [_ H] F IH]; constructor; inversion S as [|? ? S' Fa]; subst; [auto|].
    clear IH S S'. induction F as [|wc' wf' sw l [_ H'] _ IH]; constructor; inversion Fa; subst; [|auto].
    apply (C60_monotone (snd wc') (snd wc) T); auto. lia.
Qed.
Theorem C60_succeeds words : all_counts (fun v => 0 < v)%Z words -> exists l, latinIme words = Ok l.
Proof.
  intros Pos. unfold latinIme. rewrite zsum_dvals. set (T := sumZ snd words).
  assert (I : forall x, In x (sorted_by (fun a b : text * Z => (snd b <=? snd a)%Z) words) -> (0 < snd x)%Z).
  { intros x Ix. apply (Permutation_in _ (sorted_by_perm _ _)) in Ix. unfold all_counts in Pos. rewrite Forall_forall in Pos. apply Pos, Ix. }
  assert (HT : words = [] \/ T <> 0%Z).
  { destruct Pos as [|x ws Hx F]; [left; reflexivity|]. right. unfold T. rewrite sumZ_cons. cbn in Hx.
    assert (0 <= sumZ snd ws)%Z; [|lia]. apply sumZ_nonneg. intros y Iy. rewrite Forall_forall in F. specialize (F y Iy). cbn in F. lia. }
  destruct HT as [->|HT]; [cbn; eauto|]. set (l := sorted_by _ _) in *. clearbody l T. clear Pos. induction l as [|x l IH]; cbn [mapM]; [eauto|].
  specialize (I x (or_introl eq_refl)) as Px. destruct IH as [r ->]; [intros y Iy; apply I; right; exact Iy|].
  unfold f_value. destruct (T =? 0)%Z eqn:E; [lia|]. destruct (snd x <=? 0)%Z eqn:E'; [lia|]. cbn. eauto.
Qed.
Example C60_example : latinIme [([97]%N, 5); ([98]%N, 80); ([99]%N, 5); ([100]%N, 1)]%Z =
  Ok [([98]%N, 254); ([97]%N, 234); ([99]%N, 234); ([100]%N, 223)]%Z.
Proof. vm_compute. reflexivity. Qed.
(** The rounding is unambiguous: p is never half way between two values. *)
Lemma prime23 : prime 23.
Proof.
  constructor; [lia|]. intros n Hn. apply Zgcd_1_rel_prime.
  assert (n = 1 \/ n = 2 \/ n = 3 \/ n = 4 \/ n = 5 \/ n = 6 \/ n = 7 \/ n = 8 \/ n = 9 \/ n = 10 \/ n = 11 \/ n = 12 \/ n = 13 \/ n = 14 \/
    n = 15 \/ n = 16 \/ n = 17 \/ n = 18 \/ n = 19 \/ n = 20 \/ n = 21 \/ n = 22)%Z as H by lia.
  repeat (destruct H as [->|H]; [reflexivity|]). subst. reflexivity.
Qed.
Lemma no_tie k n : forall e c t, Z.to_nat t + e <= n -> Nat.odd e = true -> (0 < c)%Z -> (0 < t)%Z -> (t * t * 20 ^ Z.of_nat k <> c * c * 23 ^ Z.of_nat e)%Z.
Proof.
  assert (D20 : ~ (23 | 20 ^ Z.of_nat k)%Z).
  { induction k as [|k IHk]; [intros D; apply Z.divide_1_r in D; lia|]. rewrite Nat2Z.inj_succ, Z.pow_succ_r by lia. intros D.
    apply (prime_mult _ prime23) in D as [[q D]|D]; [lia|contradiction]. }
  set (a := (20 ^ Z.of_nat k)%Z) in *. clearbody a.
  induction n as [|n IH]; intros e c t Ln Oe Hc Ht E; [lia|].
  destruct e as [|e]; [discriminate|].
  assert (23 | t)%Z as [t' ->].
  { assert (23 | t * t * a)%Z as D.
    { rewrite E, Nat2Z.inj_succ, Z.pow_succ_r by lia. exists (c * c * 23 ^ Z.of_nat e)%Z. ring. }
    apply (prime_mult _ prime23) in D as [D|D]; [|contradiction]. apply (prime_mult _ prime23) in D as [D|D]; exact D. }
  assert (Ht' : (0 < t')%Z) by lia. destruct e as [|[|e]]; [|discriminate|].
  - change (Z.of_nat 1) with 1%Z in E. rewrite !Z.pow_1_r in E.
    assert (23 | c)%Z as [c' ->].
    { assert (23 | c * c)%Z as D by (exists (t' * t' * a)%Z; lia). apply (prime_mult _ prime23) in D as [D|D]; exact D. }
    apply (IH 1 c' t'); [lia|reflexivity|lia|lia|]. change (Z.of_nat 1) with 1%Z. rewrite !Z.pow_1_r. lia.
  - apply (IH (S e) c t'); [lia|cbn in *; exact Oe|lia|lia|].
    rewrite (Nat2Z.inj_succ (S (S e))), (Nat2Z.inj_succ (S e)), (Z.pow_succ_r _ (Z.succ _)), (Z.pow_succ_r _ (Z.of_nat (S e))) in E by lia.
    set (b := (23 ^ Z.of_nat (S e))%Z) in *. lia.
Qed.
Theorem C60_no_tie count total j : (0 < count)%Z -> (0 < total)%Z ->
  ~ (let p := (inject_Z count / inject_Z total)%Q in p * p * base115 (2 * Z.of_nat j + 1) == 1)%Q.
Proof.
  intros Hc Ht E. cbn zeta in E. rewrite (scaled count total (2 * Z.of_nat j + 1) Ht ltac:(lia)) in E.
  apply (no_tie (2 * j + 1) (Z.to_nat total + (2 * j + 1)) (2 * j + 1) count total); [lia| |exact Hc|exact Ht|].
  { rewrite Nat.add_1_r, Nat.odd_succ, Nat.even_mul. reflexivity. }
  replace (Z.of_nat (2 * j + 1)) with (2 * Z.of_nat j + 1)%Z by lia. set (a := (count * count * _)%Z) in *. set (b := (total * total * _)%Z) in *.
  assert (0 < b)%Z. { assert (0 < 20 ^ (2 * Z.of_nat j + 1))%Z by (apply Z.pow_pos_nonneg; lia). unfold b. nia. }
  assert (inject_Z a == inject_Z b)%Q; [|symmetry; apply inject_Z_injective; assumption].
  assert (~ inject_Z b == 0)%Q by (apply injQ_nz; lia). transitivity (inject_Z a / inject_Z b * inject_Z b)%Q; [field; assumption|]. rewrite E. ring.
Qed.

(** * C61: the size of a corpus *)
(** Characters are combinations pressed; words those ended by something that is
    not a letter or a character that cannot be typed. *)
Theorem C61_counts fm letter L kb es s0 s : Forall (handled fm L) es -> incl ["Fl_space"; "Fr_space"; "CD_ret"; "Cl_tab"] kb ->
  makeCombined kb = Ok s0 -> foldM (stats_process fm letter L) es s0 = Ok s ->
  corpusStats s = (sumZ (fun e => match e with SComb _ => 1 | _ => 0 end)%Z es,
                   sumZ (fun st => Z.of_nat (length (finished_words letter (flat_map (typed L) st)))) (stretches es)).
Proof.
  intros Hes Hi E0 E. unfold makeCombined in E0. rewrite triads_init_ok in E0 by exact Hi. cbn [bind] in E0. inversion E0; subst s0; clear E0.
  destruct (@simple_inv es) as (a & Ea & _ & A2 & _); [eapply Forall_impl; [|exact Hes]; apply handled_proper|].
  destruct (@runlen_inv fm es) as (r & Er & _); [eapply Forall_impl; [|exact Hes]; intros e He; apply He|].
  destruct (@triads_inv spaces es) as (t & Et & _); [eapply Forall_impl; [|exact Hes]; apply handled_single|].
  destruct (@words_inv letter L es) as (w & Ew & _ & W1); [eapply Forall_impl; [|exact Hes]; intros e He; apply He|].
  erewrite stats_process_fold in E by eassumption. inversion E; subst s. unfold corpusStats. cbn [a_simple a_words].
  assert (Z : forall K `{EqDec K} (d : list (K * Z)), zsum (dvals d) = ctotal d).
  { intros K HK d. rewrite zsum_dvals. unfold ctotal, sumZ, dvals. induction d as [|kv d IH]; cbn; [reflexivity|]. rewrite IH. reflexivity. }
  f_equal.
  - etransitivity; [apply (Z _ EqDec_comb)|]. etransitivity; [apply (counts_total _ A2)|]. clear. induction es as [|e es IH]; [reflexivity|]. cbn [flat_map]. rewrite sumZ_cons, <- IH, app_length. destruct e; cbn [ev_combs length]; lia.
  - etransitivity; [apply (Z _ EqDec_list)|]. etransitivity; [apply (counts_total _ W1)|]. clear. induction (stretches es) as [|x l IH]; [reflexivity|]. cbn [flat_map]. rewrite sumZ_cons, <- IH, app_length. lia.
Qed.
Lemma total_update {K} `{EqDec K} (a b : list (K * Z)) : sumZ snd (updateCounter a b) = (sumZ snd a + sumZ snd b)%Z.
Proof.
  unfold updateCounter, updateDictOp. revert a. induction b as [|[k v] b IH]; intros a; cbn [fold_left]; [cbn; lia|].
  rewrite IH, sumZ_cons. cbn [fst snd]. destruct (dget a k) eqn:G; rewrite (sum_dset snd), G; cbn [snd]; lia.
Qed.
(** Merging statistics adds them. *)
Theorem C61_merged kb l c : combine_stats kb l = Ok c ->
  corpusStats c = (sumZ (fun s => fst (corpusStats s)) l, sumZ (fun s => snd (corpusStats s)) l).
Proof.
  unfold combine_stats. intros E. apply bind_inv in E as (c0 & E0 & E). inversion E; subst c; clear E.
  assert (corpusStats c0 = (0, 0)%Z) as Z0. { unfold makeCombined in E0. apply bind_inv in E0 as (t & _ & E0). inversion E0. reflexivity. }
  assert (G : forall l c, corpusStats (fold_left stats_update l c) =
    (fst (corpusStats c) + sumZ (fun s => fst (corpusStats s)) l, snd (corpusStats c) + sumZ (fun s => snd (corpusStats s)) l)%Z).
  { clear. induction l as [|s l IH]; intros c; cbn [fold_left]; [unfold corpusStats; cbn; f_equal; lia|].
    rewrite IH, !sumZ_cons. unfold corpusStats at 1 3. cbn [fst snd stats_update simple_update words_update a_simple a_words s_combs w_words].
    rewrite !zsum_dvals, !total_update. unfold corpusStats. cbn [fst snd]. rewrite !zsum_dvals. f_equal; lia. }
  rewrite G, Z0. cbn [fst snd]. f_equal; lia.
Qed.
Example C61_example : Forall (handled defaultFingermap ex_words_layout) ex_word_events /\
  match (do s0 <- makeCombined kb_names; foldM (stats_process defaultFingermap (fun c => N.ltb 64 c) ex_words_layout) ex_word_events s0) with
  | Ok s => corpusStats s = (5, 1)%Z
  | Raise _ => False
  end.
Proof. split; [apply C24_example|]. vm_compute. reflexivity. Qed.

Print Assumptions C58_hands.
Print Assumptions C58_asymmetry.
Print Assumptions C58_hamza.
Print Assumptions C58_hamza_shares.
Print Assumptions C58_succeeds.
Print Assumptions C58_hamza_needs_nodup.
Print Assumptions C59_heatmap.
Print Assumptions C59_fails.
Print Assumptions C59_heat.
Print Assumptions C59_heat_fails.
Print Assumptions C60_f_value.
Print Assumptions C60_nearest.
Print Assumptions C60_monotone.
Print Assumptions C60_nonneg.
Print Assumptions C60_dictionary.
Print Assumptions C60_succeeds.
Print Assumptions C60_no_tie.
Print Assumptions C61_counts.
Print Assumptions C61_merged.
