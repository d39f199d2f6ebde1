(** C55-C61: the tools working on recorded statistics. *)
From Coq Require Import QArith Lqa.
From Verif Require Import Base UtilModel LayoutModel LayoutSpec LayoutProofs WriterModel StatsModel StatsSpec CarpalxModel CarpalxSpec CarpalxQ OptModel RenderModel.
From Verif Require Import PlotModel PlotSpec PlotProofs.
From Verif Require PropsOptimize.
Close Scope Q_scope.
Open Scope string_scope.
Open Scope list_scope.
Unset Implicit Arguments.

(** * C55: letter frequencies *)
(** The rows are the distinct texts starting with a letter that were typed, by
    increasing count; the counts of different combinations typing the same text
    are added; the cumulated count is what this and all following rows add up to. *)
Theorem C55_rows category L combs rows : letterfreq category L combs = Ok rows ->
  let T := amount (types_letter (isLo category) L) combs in
  T <> 0%Z /\ NoDup (map lletter rows) /\
  (forall t, In t (map lletter rows) <->
     (exists c r, t = c :: r /\ category c = "Lo") /\ exists k, In k (dkeys combs) /\ getText L k = Ok (CText t)) /\
  StronglySorted (fun a b => labs a <= labs b)%Z rows /\ sumZ labs rows = T /\
  forall i r, nth_error rows i = Some r ->
    lx r = i /\ labs r = amount (types L (lletter r)) combs /\ lcum r = sumZ labs (skipn i rows) /\
    (lrel r == inject_Z (labs r) / inject_Z T)%Q /\ (lcumRel r == inject_Z (lcum r) / inject_Z T)%Q.
Proof.
  intros E. cbn zeta. unfold letterfreq in E. apply bind_inv in E as (b & Eb & E). apply bind_inv in E as (rows' & Er & E).
  assert (rows' = rows /\ rows <> []) as [-> Hne] by (destruct rows'; inversion E; subst; split; [reflexivity|discriminate]). clear E.
  destruct (letter_bins_spec _ _ _ _ Eb) as ((Wf & Kb & Vb & Tb) & _).
  pose proof (sorted_by_ok (fun a b : text * Z => (snd a <=? snd b)%Z) (leb_by_total snd) (leb_by_trans snd) b) as (Pm & So & _).
  set (sb := sorted_by (fun a b : text * Z => (snd a <=? snd b)%Z) b) in *.
  rewrite zsum_dvals, Tb in Er. set (T := amount (types_letter (isLo category) L) combs) in *.
  destruct (letter_rows_ok category L _ _ _ _ _ Er) as (Hn & Hm & Hr).
  assert (Hlet : map lletter rows = dkeys sb) by (rewrite <- Hm; unfold dkeys; rewrite map_map; reflexivity).
  assert (Habs : forall l, sumZ labs l = sumZ snd (map (fun r => (lletter r, labs r)) l)) by (intros l; rewrite sumZ_map; reflexivity).
  assert (Pk : Permutation (dkeys sb) (dkeys b)) by (apply Permutation_map, Pm).
  assert (HT : sumZ labs rows = T) by (rewrite Habs, Hm, (sumZ_perm _ _ _ Pm); exact Tb).
  split; [apply Hn; rewrite <- Hm; destruct rows; [congruence|discriminate]|].
  split; [rewrite Hlet; apply (Permutation_NoDup (Permutation_sym Pk)), Wf|].
  split.
  { intros t. rewrite Hlet. transitivity (In t (dkeys b)).
    - split; apply Permutation_in; [exact Pk|symmetry; exact Pk].
    - rewrite Kb. split.
      + intros [Lo (k & Ik & Tk)]. split; [|exists k; split; [exact Ik|apply types_spec, Tk]].
        destruct t as [|c r]; [discriminate|]. cbn in Lo. rewrite orb_false_r in Lo. apply String.eqb_eq in Lo. eauto.
      + intros [(c & r & -> & Hc) (k & Ik & Tk)]. split; [cbn; rewrite orb_false_r; apply String.eqb_eq, Hc|].
        exists k. split; [exact Ik|]. apply types_spec, Tk. }
  split.
  { rewrite <- Hm in So. clear -So. induction rows as [|r rows IH]; [constructor|]. cbn [map] in So. inversion So as [|? ? S' F]; subst.
    constructor; [auto|]. apply Forall_map in F. eapply Forall_impl; [|exact F]. cbn. intros a Ha. lia. }
  split; [exact HT|].
  intros i r Hi. destruct (Hr _ _ Hi) as (A & B & C & D). split; [exact A|]. split; [|split; [|split; [exact B|exact D]]].
  - assert (I : In (lletter r, labs r) sb) by (rewrite <- Hm; apply in_map_iff; exists r; split; [reflexivity|eapply nth_error_In, Hi]).
    apply (Permutation_in _ Pm) in I. rewrite <- Vb by (apply in_map_iff; exists (lletter r, labs r); split; [reflexivity|exact I]).
    apply (dget_In_iff _ _ _ Wf) in I. unfold dget0. rewrite I. reflexivity.
  - rewrite C. rewrite <- HT, <- (firstn_skipn i rows), sumZ_app at 1. rewrite <- Hm, firstn_map, sumZ_map. cbn [snd]. 
    change (sumZ (fun x : lrow => labs x) (firstn i rows)) with (sumZ labs (firstn i rows)). lia.
Qed.
(** With counts that are not negative all shares are between 0 and 1; those of
    the single letters add up to 1, the cumulated one starts with 1. *)
Theorem C55_shares category L combs rows : letterfreq category L combs = Ok rows -> all_counts (fun v => 0 <= v)%Z combs ->
  (qsum lrel rows == 1)%Q /\ (exists r rs, rows = r :: rs /\ (lcumRel r == 1)%Q) /\
  forall r, In r rows -> (0 <= lrel r <= lcumRel r)%Q /\ (lcumRel r <= 1)%Q.
Proof.
  intros E Nn. destruct (C55_rows _ _ _ _ E) as (N & _ & _ & _ & HT & R). cbn zeta in *.
  set (T := amount (types_letter (isLo category) L) combs) in *.
  assert (Tn : (0 <= T)%Z) by apply (amount_nonneg _ _ Nn). assert (Tp : (0 < T)%Z) by lia. pose proof (injQ_pos _ Tp) as Tq.
  assert (Ha : forall r, In r rows -> (0 <= labs r)%Z).
  { intros r I. apply In_nth_error in I as [i Hi]. destruct (R _ _ Hi) as (_ & -> & _). apply (amount_nonneg _ _ Nn). }
  assert (Hr : forall r, In r rows -> (lrel r == inject_Z (labs r) / inject_Z T)%Q).
  { intros r I. apply In_nth_error in I as [i Hi]. apply (R _ _ Hi). }
  split; [|split].
  - rewrite (qsum_ext lrel (fun r => (/ inject_Z T) * inject_Z (labs r))%Q).
    2: { intros r I. rewrite (Hr _ I). unfold Qdiv. ring. }
    rewrite qsum_mulc.
    assert (S : (qsum (fun r => inject_Z (labs r)) rows == inject_Z (sumZ labs rows))%Q).
    { clear. induction rows as [|r rows IH]; [reflexivity|]. rewrite sumZ_cons, inject_Z_plus. cbn [qsum]. rewrite IH. reflexivity. }
    rewrite S, HT. field. intros Z. rewrite Z in Tq. lra.
  - destruct rows as [|r rs]; [cbn in HT; lia|]. exists r, rs. split; [reflexivity|].
    destruct (R 0 r eq_refl) as (_ & _ & C & _ & D). cbn [skipn] in C. rewrite D, C, HT. field. intros Z. rewrite Z in Tq. lra.
  - intros r I. apply In_nth_error in I as [i Hi]. destruct (R _ _ Hi) as (_ & _ & C & B & D).
    assert (Sk : (sumZ labs (skipn i rows) = labs r + sumZ labs (skipn (S i) rows))%Z).
    { clear -Hi. revert rows Hi. induction i as [|i IH]; intros [|x rows] Hi; try discriminate.
      - inversion Hi; subst. reflexivity.
      - cbn [skipn]. rewrite (IH _ Hi). reflexivity. }
    assert (S1 : (0 <= sumZ labs (skipn (S i) rows))%Z).
    { apply sumZ_nonneg. intros x Ix. apply Ha. rewrite <- (firstn_skipn (S i)). apply in_or_app. right. exact Ix. }
    assert (S2 : (sumZ labs (skipn i rows) <= T)%Z).
    { rewrite <- HT. rewrite <- (firstn_skipn i rows) at 2. rewrite sumZ_app.
      assert (0 <= sumZ labs (firstn i rows))%Z; [|lia]. apply sumZ_nonneg. intros x Ix. apply Ha. rewrite <- (firstn_skipn i). apply in_or_app. left. exact Ix. }
    pose proof (Ha r (nth_error_In _ _ Hi)) as A0.
    assert (F1 : (0 <= inject_Z (labs r) / inject_Z T)%Q) by (apply frac_bounds; lia).
    assert (F2 : (inject_Z (lcum r) / inject_Z T <= 1)%Q) by (apply frac_bounds; lia).
    assert (F3 : (inject_Z (labs r) / inject_Z T <= inject_Z (lcum r) / inject_Z T)%Q).
    { unfold Qdiv. apply Qmult_le_compat_r; [rewrite <- Zle_Qle; lia|]. apply Qlt_le_weak, Qinv_lt_0_compat, Tq. }
    rewrite B, D. split; [split|]; assumption.
Qed.
(** It succeeds if everything counted types something, some of it letters; if
    there are no letters it fails. *)
Theorem C55_succeeds category L combs : all_counts (fun v => 0 < v)%Z combs ->
  (forall c, In c (dkeys combs) -> exists x r, getText L c = Ok (CText (x :: r))) ->
  if existsb (types_letter (isLo category) L) (dkeys combs)
  then exists rows, letterfreq category L combs = Ok rows
  else letterfreq category L combs = Raise ValueError.
Proof.
  intros Pos Ty. destruct (letter_bins_total category L combs [] Ty) as [b Eb].
  destruct (letter_bins_spec _ _ _ _ Eb) as ((Wf & Kb & Vb & Tb) & _). unfold letterfreq. rewrite Eb. cbn [bind].
  rewrite zsum_dvals, Tb. destruct (existsb (types_letter (isLo category) L) (dkeys combs)) eqn:X.
  - apply existsb_exists in X as (c & Ic & Tc).
    assert (N : (amount (types_letter (isLo category) L) combs <> 0)%Z).
    { assert (0 < amount (types_letter (isLo category) L) combs)%Z; [|lia]. clear -Pos Ic Tc.
      induction combs as [|kv combs IH]; [destruct Ic|]. inversion Pos as [|? ? P Ps]; subst. unfold amount in *. rewrite sumZ_cons.
      pose proof (amount_nonneg (types_letter (isLo category) L) combs) as An. unfold amount in An.
      assert (0 <= sumZ (fun kv => if types_letter (isLo category) L (fst kv) then snd kv else 0%Z) combs)%Z.
      { apply An. eapply Forall_impl; [|exact Ps]. cbn; lia. }
      destruct Ic as [<-|Ic]; [rewrite Tc; lia|]. specialize (IH Ps Ic). destruct (types_letter (isLo category) L (fst kv)); lia. }
    destruct (letter_rows_total (amount (types_letter (isLo category) L) combs) (sorted_by (fun a b0 => (snd a <=? snd b0)%Z) b) 0
      (amount (types_letter (isLo category) L) combs) N) as (rows & -> & Hl). cbn [bind].
    destruct rows as [|r rows]; [|eauto]. cbn in Hl. symmetry in Hl. apply length_zero_iff_nil in Hl.
    pose proof (sorted_by_perm (fun a b0 : text * Z => (snd a <=? snd b0)%Z) b) as P. rewrite Hl in P. apply Permutation_nil in P. subst b. cbn in Tb. congruence.
  - assert (b = []) as ->; [|reflexivity]. destruct b as [|[t v] b]; [reflexivity|]. exfalso.
    destruct (proj1 (Kb t) (or_introl eq_refl)) as (Lo & c & Ic & Tc). apply types_spec in Tc.
    assert (F : existsb (types_letter (isLo category) L) (dkeys combs) = true); [|congruence].
    apply existsb_exists. exists c. split; [exact Ic|]. unfold types_letter. rewrite Tc. destruct t; exact Lo.
Qed.

(** * C56: the most frequent triads *)
(** What is displayed for a text triad *)
Definition shown_as (disp : text -> res text) (k : list cell) (t : text) : Prop :=
  exists parts, Forall2 (fun c p => exists x, c = CText x /\ disp x = Ok p) k parts /\ t = List.concat parts.
(** What a line is sorted by *)
Definition line_key (s : sorter) (W : Z) (line : text * Z * Q) : Q :=
  match s with
  | ByWeight => inject_Z (snd (fst line))
  | ByEffort => snd line
  | ByCombined => (inject_Z (snd (fst line)) / inject_Z W * (snd line * snd line))%Q
  end.
Section Triadfreq.
  Variables (disp : text -> res text) (cutoff : Q) (reverse : bool) (s : sorter) (L : layout) (m : model Qnum) (ts : list (triad * Z)).
  Let wt (k : list cell) : Z := amount (types_triad L k) ts.
  Let W : Z := sumZ snd ts.
  Let typed_triad (k : list cell) : Prop := exists t, In t (dkeys ts) /\ types_triad L k t = true.
  Let key (d : list cell * tbin) := sort_key s W d.
  Let line_of (k : list cell) (line : text * Z * Q) : Prop :=
    shown_as disp k (fst (fst line)) /\ snd (fst line) = wt k /\ (snd line == mean scoreQ m (ledger_of L k ts))%Q.
  Lemma shown_ok k t : shown disp k = Ok t -> shown_as disp k t.
  Proof.
    unfold shown. intros E. apply bind_inv in E as (l & El & E). inversion E; subst t. exists l. split; [|reflexivity].
    apply mapM_Ok_inv in El. induction El as [|c p k l Hc _ IH]; constructor.
    - destruct c as [x|]; [eauto|discriminate].
    - apply IH. reflexivity.
  Qed.
  Let print (d : list cell * tbin) : res (text * Z * Q) := do t <- shown disp (fst d); Ok (t, bweight (snd d), bin_effort (snd d)).
  Lemma print_ok b d line : tinv L m (b, W) ts -> In d b -> print d = Ok line ->
    line_of (fst d) line /\ typed_triad (fst d) /\ line_key s W line = key d.
  Proof.
    intros (_ & Wf & Kb & Vb & _) I E. cbn [fst snd] in *. unfold print in E. apply bind_inv in E as (t & Et & E). inversion E; subst line; clear E.
    destruct d as [k d]. cbn [fst snd] in *. assert (G : dget b k = Some d) by (apply dget_In_iff; auto).
    destruct (Vb _ _ G) as (Hw & Hm & Hc & Ha). cbn [fst snd] in *. split; [split; [|split]|split].
    - apply shown_ok, Et.
    - exact Hw.
    - cbn [snd]. unfold bin_effort, reffort. apply mean_alt; assumption.
    - apply Kb. apply in_map_iff. exists (k, d). auto.
    - destruct s; reflexivity.
  Qed.
  Lemma prints_ok b ds out : tinv L m (b, W) ts -> incl ds b -> mapM print ds = Ok out ->
    Forall2 line_of (map fst ds) out /\ Forall typed_triad (map fst ds) /\ map (line_key s W) out = map key ds.
  Proof.
    intros Hi Hs E. apply mapM_Ok_inv in E. induction E as [|d line ds out Hd _ IH]; [repeat constructor|].
    destruct (print_ok b d line Hi (Hs d (or_introl eq_refl)) Hd) as (A & B & C).
    destruct IH as (A' & B' & C'); [intros x Ix; apply Hs; right; exact Ix|]. cbn [map]. repeat split; try constructor; auto. congruence.
  Qed.
  Lemma limit_firstn {A} (l : list A) n : limit_list l n = firstn n l.
  Proof. revert l; induction n as [|n IH]; intros [|x l]; cbn; try reflexivity. now rewrite IH. Qed.
  Lemma SS_map {A B} (f : A -> B) (R : B -> B -> Prop) l : StronglySorted (fun a b => R (f a) (f b)) l <-> StronglySorted R (map f l).
  Proof.
    induction l as [|x l IH]; cbn [map]; [split; constructor|]. split; intros S; inversion S as [|? ? S' F]; subst; constructor.
    - apply IH, S'.
    - apply Forall_map, F.
    - apply IH, S'.
    - apply (proj1 (Forall_map _ _ _)) in F. exact F.
  Qed.
  Lemma SS_app {A} (R : A -> A -> Prop) l r x y : StronglySorted R (l ++ r) -> In x l -> In y r -> R x y.
  Proof.
    induction l as [|a l IH]; intros S Ix Iy; [destruct Ix|]. cbn [app] in S. inversion S as [|? ? S' F]; subst.
    destruct Ix as [<-|Ix]; [|auto]. rewrite Forall_forall in F. apply F, in_or_app. auto.
  Qed.
  Lemma SS_app_l {A} (R : A -> A -> Prop) l r : StronglySorted R (l ++ r) -> StronglySorted R l.
  Proof.
    induction l as [|a l IH]; intros S; [constructor|]. cbn [app] in S. inversion S as [|? ? S' F]; subst.
    constructor; [auto|]. apply Forall_app in F. tauto.
  Qed.
  Lemma NoDup_app_l {A} (l r : list A) : NoDup (l ++ r) -> NoDup l.
  Proof.
    induction l as [|x l IH]; intros N; [constructor|]. cbn [app] in N. inversion N; subst. constructor; [|auto].
    intros I. apply H1. apply in_or_app. auto.
  Qed.
  (** Without a limit, the lines printed are those of a selection [ks] of the text
      triads recorded. *)
  Theorem C56_printed n out : (n <= 0)%Z -> all_counts (fun v => 0 <= v)%Z ts ->
    triadfreq disp cutoff reverse s n L m ts = Ok out ->
    exists ks, NoDup ks /\ Forall typed_triad ks /\ Forall2 line_of ks out /\
      (* they contribute enough of the weight, or are all there is *)
      ((forall k, typed_triad k -> In k ks) \/ (inject_Z W * cutoff <= inject_Z (sumZ wt ks))%Q) /\
      (* those left out are not more frequent *)
      (forall k k', In k ks -> typed_triad k' -> ~ In k' ks -> wt k' <= wt k)%Z /\
      (* none is superfluous *)
      (forall k, In k ks -> (forall k', In k' ks -> wt k <= wt k')%Z -> (inject_Z (sumZ wt ks - wt k) < inject_Z W * cutoff)%Q) /\
      (* in the order asked for *)
      StronglySorted (fun a b => if reverse then line_key s W b <= line_key s W a else line_key s W a <= line_key s W b)%Q out.
  Proof.
    intros Hn Nn E. unfold triadfreq in E. apply bind_inv in E as ([b W'] & Eb & E).
    pose proof (triad_bins_ok _ _ _ _ Eb) as Hi. assert (W' = W) as -> by apply Hi.
    replace (0 <? n)%Z with false in E by lia.
    set (top := top_triads cutoff W b) in *.
    pose proof (sorted_by_ok (by_key key reverse) (by_key_total key reverse) (by_key_trans key reverse) top) as (Pt & St & _).
    change (sort_key s W) with key in E.
    pose proof (sorted_by_ok by_weight (fun x y => leb_by_total (fun d => bweight (snd d)) y x)
      (fun x y z H1 H2 => leb_by_trans (fun d => bweight (snd d)) z y x H2 H1) b) as (Pb & Sb & _).
    destruct Hi as (HW & Wf & Kb & Vb & Sc). cbn [fst snd] in *.
    assert (Hb : forall k d, In (k, d) b -> bweight d = wt k).
    { intros k d I. apply (dget_In_iff _ _ _ Wf) in I. apply Vb in I as [-> _]. reflexivity. }
    assert (Nb : Forall (fun d => 0 <= bweight (snd d))%Z (sorted_by by_weight b)).
    { apply Forall_forall. intros [k d] I. apply (Permutation_in _ Pb) in I. cbn [snd]. rewrite (Hb _ _ I). apply amount_nonneg, Nn. }
    destruct (top_fold (inject_Z W * cutoff)%Q _ Nb [] 0%Z) as (c & Lc & Ef & Lt & En).
    assert (Et : top = firstn c (sorted_by by_weight b)) by (unfold top, top_triads; rewrite Ef; reflexivity).
    set (sb := sorted_by by_weight b) in *.
    assert (It : incl (sorted_by (by_key key reverse) top) b).
    { intros d I. apply (Permutation_in _ Pt) in I. rewrite Et in I. apply (Permutation_in _ Pb). rewrite <- (firstn_skipn c sb). apply in_or_app. left. exact I. }
    destruct (prints_ok b _ out (conj HW (conj Wf (conj Kb (conj Vb Sc)))) It E) as (A & B & C).
    exists (map fst (sorted_by (by_key key reverse) top)).
    assert (Ptop : Permutation (map fst (sorted_by (by_key key reverse) top)) (map fst top)) by (apply Permutation_map, Pt).
    assert (Nsb : NoDup (map fst sb)) by (apply (Permutation_NoDup (Permutation_sym (Permutation_map fst Pb))), Wf).
    assert (Nt : NoDup (map fst top ++ map fst (skipn c sb))) by (rewrite <- map_app, Et, firstn_skipn; exact Nsb).
    assert (Ws : forall ds, incl ds b -> sumZ wt (map fst ds) = wsum ds).
    { intros ds Hd. rewrite sumZ_map. apply sumZ_ext_in. intros [k d] I. cbn [fst snd]. symmetry. apply Hb, Hd, I. }
    assert (Itop : incl top b) by (intros d I; apply It, (Permutation_in _ (Permutation_sym Pt)), I).
    assert (Wk : sumZ wt (map fst (sorted_by (by_key key reverse) top)) = wsum top) by (rewrite (sumZ_perm _ _ _ Ptop); apply Ws, Itop).
    split; [|split; [|split; [|split; [|split; [|split]]]]].
    - apply (Permutation_NoDup (Permutation_sym Ptop)). eapply NoDup_app_l. exact Nt.
    - exact B.
    - exact A.
    - rewrite Wk. destruct En as [En|En]; [left|right].
      + intros k Hk. apply Kb in Hk. apply (Permutation_in _ (Permutation_sym Ptop)).
        rewrite Et, En, firstn_all. apply (Permutation_in _ (Permutation_sym (Permutation_map fst Pb))), Hk.
      + rewrite Et. exact En.
    - intros k k' Hk Hk' Nk'. apply (Permutation_in _ Ptop) in Hk. apply Kb in Hk'.
      apply in_map_iff in Hk as ([k1 d] & <- & Id). apply in_map_iff in Hk' as ([k2 d'] & <- & Id'). cbn [fst] in *.
      apply (Permutation_in _ (Permutation_sym Pb)) in Id' as Is. rewrite <- (firstn_skipn c sb) in Is. apply in_app_or in Is as [Is|Is].
      { destruct Nk'. apply (Permutation_in _ (Permutation_sym Ptop)). rewrite Et. apply in_map_iff. exists (k2, d'). auto. }
      rewrite <- (firstn_skipn c sb) in Sb. rewrite Et in Id. pose proof (SS_app _ _ _ _ _ Sb Id Is) as O. unfold by_weight in O. cbn [snd] in O.
      rewrite <- (Hb k2 d' Id'). rewrite <- (Hb k1 d) by (apply Itop; rewrite Et; exact Id). lia.
    - intros k Hk Hmin. rewrite Wk. apply (Permutation_in _ Ptop) in Hk.
      assert (exists c', c = S c') as [c' ->]. { destruct c as [|c']; [|eauto]. rewrite Et in Hk. destruct Hk. }
      assert (exists d, top = firstn c' sb ++ [d]) as [d Ed].
      { rewrite Et. clear -Lc. clearbody sb. revert sb Lc. induction c' as [|c' IH]; intros [|x l] Lc; cbn in Lc; try lia; [exists x; reflexivity|].
        destruct (IH l ltac:(lia)) as [d Ed]. exists d. cbn [firstn] in *. rewrite Ed. reflexivity. }
      assert (In d top) as Idt by (rewrite Ed; apply in_or_app; cbn; auto). destruct d as [kd dd].
      assert (O : (wt k <= wt kd)%Z).
      { apply Hmin, (Permutation_in _ (Permutation_sym Ptop)). apply in_map_iff. exists (kd, dd). auto. }
      assert (O' : (wt kd <= wt k)%Z).
      { apply in_map_iff in Hk as ([k1 d1] & <- & I1). cbn [fst] in *. rewrite <- (Hb kd dd), <- (Hb k1 d1) by (apply Itop; auto).
        rewrite Ed in I1. apply in_app_or in I1 as [I1|[I1|[]]]; [|inversion I1; subst; lia].
        rewrite <- (firstn_skipn (S c') sb), <- Et, Ed in Sb. apply SS_app_l in Sb.
        pose proof (SS_app _ _ _ _ _ Sb I1 (or_introl eq_refl)) as O1. unfold by_weight in O1. cbn [snd] in O1. lia. }
      assert (Hw : wsum top = (wsum (firstn c' sb) + wt k)%Z).
      { rewrite Ed. unfold wsum. rewrite sumZ_app, sumZ_cons. cbn [snd]. rewrite (Hb kd dd) by (apply Itop; auto). cbn. lia. }
      rewrite Hw. replace (wsum (firstn c' sb) + wt k - wt k)%Z with (0 + wsum (firstn c' sb))%Z by lia. apply Lt. lia.
    - assert (SK : StronglySorted (fun a b => if reverse then b <= a else a <= b)%Q (map (line_key s W) out)).
      { rewrite C. apply SS_map. clear -St. set (l := sorted_by (by_key key reverse) top) in *. clearbody l.
        induction St as [|a l _ IH F]; constructor; [exact IH|]. eapply Forall_impl; [|exact F]. intros b0 O. unfold by_key in O.
        destruct reverse; apply Qle_bool_iff, O. }
      apply SS_map in SK. exact SK.
  Qed.
  Lemma sum_one {A} (P : A -> bool) v k ks : NoDup ks -> In k ks -> (forall k', P k' = true <-> k' = k) ->
    sumZ (fun k' => if P k' then v else 0%Z) ks = v.
  Proof.
    intros Nd I HP. induction Nd as [|x ks Nx Nd IH]; [destruct I|]. rewrite sumZ_cons. destruct (P x) eqn:Px.
    - apply HP in Px as ->. rewrite (sumZ_ext_in _ (fun _ => 0%Z)); [rewrite sumZ_zero; lia|]. intros y Iy.
      destruct (P y) eqn:Py; [apply HP in Py as ->; contradiction|reflexivity].
    - destruct I as [->|I]; [rewrite (proj2 (HP k) eq_refl) in Px; discriminate|]. rewrite IH; auto.
  Qed.
  (** A cutoff of at most 1 is always reached. *)
  Theorem C56_cutoff n out : (n <= 0)%Z -> all_counts (fun v => 0 <= v)%Z ts -> (cutoff <= 1)%Q ->
    triadfreq disp cutoff reverse s n L m ts = Ok out -> (inject_Z W * cutoff <= inject_Z (sumZ (fun l => snd (fst l)) out))%Q.
  Proof.
    intros Hn Nn Hc E. pose proof E as E0. apply C56_printed in E as (ks & Nd & Ty & Li & [All|Enough] & _); auto.
    - (* all text triads together make up the whole weight *)
      assert (S : sumZ (fun l => snd (fst l)) out = sumZ wt ks).
      { clear -Li. induction Li as [|k l ks out (_ & H & _) _ IH]; [reflexivity|]. rewrite !sumZ_cons, IH, H. reflexivity. }
      rewrite S. assert (sumZ wt ks = W) as ->.
      { unfold triadfreq in E0. apply bind_inv in E0 as ([b W'] & Eb & _). apply triad_bins_ok in Eb as (HW & Wf & Kb & Vb & Sc).
        cbn [fst snd] in *. unfold wt, amount. rewrite sumZ_swap. apply sumZ_ext_in. intros [t v] I. cbn [fst snd].
        destruct (Sc t (in_map fst _ _ I)) as [[k Ek] _]. apply (sum_one (fun k' => types_triad L k' t) v k ks Nd).
        - apply All. exists t. split; [apply (in_map fst _ _ I)|]. apply types_triad_spec, Ek.
        - intros k'. rewrite types_triad_spec, Ek. split; congruence. }
      assert (0 <= W)%Z. { apply sumZ_nonneg. unfold all_counts in Nn. rewrite Forall_forall in Nn. exact Nn. }
      assert (0 <= inject_Z W)%Q by (change 0%Q with (inject_Z 0); rewrite <- Zle_Qle; lia). nra.
    - assert (S : sumZ (fun l => snd (fst l)) out = sumZ wt ks).
      { clear -Li. induction Li as [|k l ks out (_ & H & _) _ IH]; [reflexivity|]. rewrite !sumZ_cons, IH, H. reflexivity. }
      rewrite S. exact Enough.
  Qed.
End Triadfreq.
(** A limit keeps the first lines. *)
Theorem C56_limit disp cutoff reverse s n L m ts out all : (0 < n)%Z ->
  triadfreq disp cutoff reverse s n L m ts = Ok out -> triadfreq disp cutoff reverse s 0 L m ts = Ok all ->
  out = firstn (Z.to_nat n) all.
Proof.
  intros Hn E E0. unfold triadfreq in *. apply bind_inv in E as ([b W] & Eb & E). rewrite Eb in E0. cbn [bind] in E0.
  replace (0 <? n)%Z with true in E by lia. cbn [Z.ltb Z.compare] in E0. rewrite limit_firstn in E.
  set (l := sorted_by _ _) in *. clearbody l. set (f := fun d => _) in *. clearbody f. clear Hn. revert l all out E E0.
  induction (Z.to_nat n) as [|k IH]; intros l all out E E0; cbn [firstn] in *; [inversion E; reflexivity|].
  destruct l as [|d l]; [inversion E; inversion E0; reflexivity|]. cbn [mapM] in *.
  destruct (f d) as [y|]; [|discriminate]. cbn [bind] in *. apply bind_inv in E as (o & Eo & E). apply bind_inv in E0 as (a & Ea & E0).
  inversion E; inversion E0; subst. cbn [firstn]. f_equal. eapply IH; eauto.
Qed.
(** It succeeds on triads that type text and have an effort. *)
Theorem C56_succeeds disp cutoff reverse s n L m ts : initCheck m = Ok tt -> (forall t, exists d, disp t = Ok d) ->
  (forall t, In t (dkeys ts) -> (exists e, triadCompute m t = Ok e) /\ Forall (fun c => exists x, getText L c = Ok (CText x)) t) ->
  exists out, triadfreq disp cutoff reverse s n L m ts = Ok out.
Proof.
  intros Hc Hd Ht.
  assert (Hk : forall t, In t (dkeys ts) -> exists k, mapM (getText L) t = Ok k /\ Forall (fun c => exists x, c = CText x) k).
  { intros t I. destruct (Ht t I) as [_ F]. clear -F. induction F as [|c t (x & Ex) _ (k & Ek & Fk)]; [exists []; split; [reflexivity|constructor]|].
    exists (CText x :: k). cbn [mapM]. rewrite Ex, Ek. split; [reflexivity|]. constructor; eauto. }
  destruct (triad_bins_total L m ts Hc) with (st := ([], 0%Z) : list (list cell * tbin) * Z) (ts := @nil (triad * Z)) as [[b W] Eb].
  { intros t I. destruct (Hk t I) as (k & Ek & _). split; [eauto|]. apply Ht, I. }
  { apply (triad_bins_ok L m []). reflexivity. }
  pose proof (triad_bins_ok L m ts _ Eb) as (_ & Wf & Kb & _). cbn [fst snd] in *.
  unfold triadfreq. unfold triad_bins. rewrite Eb. cbn [bind].
  assert (It : forall d, In d (sorted_by (by_key (sort_key s W) reverse) (top_triads cutoff W b)) -> In d b).
  { intros d I. apply (Permutation_in _ (sorted_by_perm _ _)) in I. unfold top_triads in I.
    assert (F : forall l acc w, (forall x, In x acc -> In x b) -> (forall x, In x l -> In x b) ->
      forall x, In x (fst (fold_left (top_step (inject_Z W * cutoff)%Q) l (acc, w))) -> In x b).
    { clear. induction l as [|d l IH]; intros acc w Ha Hl x; cbn [fold_left]; [apply Ha|]. unfold top_step at 2. cbn [fst snd].
      destruct (qlt (inject_Z w) _).
      - apply IH; [|intros y Iy; apply Hl; right; exact Iy]. intros y Iy. apply in_app_or in Iy as [Iy|[<-|[]]]; [auto|apply Hl; left; reflexivity].
      - apply IH; [exact Ha|intros y Iy; apply Hl; right; exact Iy]. }
    apply F in I; [exact I|intros x []|]. intros x Ix. apply (Permutation_in _ (sorted_by_perm _ _)) in Ix. exact Ix. }
  set (l := sorted_by _ _) in *. clearbody l.
  assert (It' : forall d, In d (if (0 <? n)%Z then limit_list l (Z.to_nat n) else l) -> In d b).
  { intros d I. apply It. destruct (0 <? n)%Z; [|exact I]. rewrite limit_firstn in I.
    rewrite <- (firstn_skipn (Z.to_nat n) l). apply in_or_app. left. exact I. }
  set (l' := if (0 <? n)%Z then _ else _) in *. clearbody l'. clear l It.
  induction l' as [|d l' IH]; cbn [mapM]; [eauto|].
  destruct IH as [out ->]; [intros x Ix; apply It'; right; exact Ix|].
  assert (exists t, shown disp (fst d) = Ok t) as [t ->]; [|cbn; eauto].
  assert (I : In (fst d) (dkeys b)) by (apply in_map, It'; left; reflexivity).
  apply Kb in I as (t & It & Tt). apply types_triad_spec in Tt. destruct (Hk t It) as (k & Ek & Fk).
  assert (fst d = k) as -> by congruence. clear -Fk Hd. unfold shown.
  assert (exists r, mapM (fun c => match c with CText t => disp t | COther => Raise TypeError end) k = Ok r) as [r ->]; [|cbn; eauto].
  induction Fk as [|c k (x & ->) _ [r IH]]; cbn [mapM]; [eauto|]. destruct (Hd x) as [p ->]. rewrite IH. cbn. eauto.
Qed.

(** * C57: weight and effort of the most frequent triads *)
(** [ms] selects from the positions 1..n greedily with distance at least [w],
    measured by [f]. *)
Inductive greedy (f : nat -> Z) (w : Z) : nat -> list nat -> Prop :=
  | G0 : greedy f w 0 []
  | Gfirst : greedy f w 1 [1]
  | Gadd n ms k : greedy f w (S n) (ms ++ [k]) -> (f k + w <= f (S (S n)))%Z -> greedy f w (S (S n)) (ms ++ [k; S (S n)])
  | Gskip n ms k : greedy f w (S n) (ms ++ [k]) -> (f (S (S n)) < f k + w)%Z -> greedy f w (S (S n)) (ms ++ [k]).
Definition is_point (bins : list (Z * Q)) (n : nat) (xy : Z * Q) : Prop :=
  fst xy = pweight (firstn n bins) /\ (snd xy == peffort (firstn n bins))%Q.
Lemma firstn_snoc {A} (l : list A) x r : firstn (S (length l)) (l ++ x :: r) = l ++ [x].
Proof. induction l as [|y l IH]; cbn [app length firstn]; [reflexivity|]. f_equal. exact IH. Qed.
Lemma peffort_snoc l d : (peffort (l ++ [d]) == peffort l + snd d * inject_Z (fst d))%Q.
Proof. unfold peffort. rewrite qsum_app. cbn [qsum]. ring. Qed.
Lemma Forall2_snoc {A B} (P : A -> B -> Prop) l r x y : Forall2 P l r -> P x y -> Forall2 P (l ++ [x]) (r ++ [y]).
Proof. intros F H. apply Forall2_app; [exact F|]. constructor; [exact H|constructor]. Qed.
Lemma Forall2_snoc_inv {A B} (P : A -> B -> Prop) l x r : Forall2 P (l ++ [x]) r -> exists r' y, r = r' ++ [y] /\ Forall2 P l r' /\ P x y.
Proof.
  intros F. apply Forall2_app_inv_l in F as (r1 & r2 & F1 & F2 & ->). inversion F2 as [|? y ? ? H F3]; subst. inversion F3; subst. eauto.
Qed.
Lemma points_inv w bins : forall post pre p cw ce ms, bins = pre ++ post ->
  is_point bins (length pre) (cw, ce) -> Forall2 (is_point bins) ms p ->
  greedy (fun n => pweight (firstn n bins)) w (length pre) ms ->
  exists ms' p' c, fold_left (point_step w) post (p, (cw, ce)) = (p', c) /\ is_point bins (length bins) c /\
    Forall2 (is_point bins) ms' p' /\ greedy (fun n => pweight (firstn n bins)) w (length bins) ms'.
Proof.
  induction post as [|d post IH]; intros pre p cw ce ms Eb [C1 C2] F G.
  - rewrite app_nil_r in Eb. subst pre. exists ms, p, (cw, ce). repeat split; auto.
  - cbn [fold_left]. unfold point_step at 2. cbn [fst snd] in C1, C2.
    assert (Eb' : bins = (pre ++ [d]) ++ post) by (rewrite <- app_assoc; exact Eb).
    assert (Hp : firstn (length pre) bins = pre) by (rewrite Eb, firstn_app, firstn_all, Nat.sub_diag; cbn; apply app_nil_r).
    assert (Hs : firstn (S (length pre)) bins = pre ++ [d]) by (rewrite Eb; apply firstn_snoc).
    assert (Ls : length (pre ++ [d]) = S (length pre)) by (rewrite app_length; cbn; lia).
    assert (Pn : is_point bins (S (length pre)) ((cw + fst d)%Z, (ce + snd d * inject_Z (fst d))%Q)).
    { split; cbn [fst snd]; rewrite Hs.
      - unfold pweight in *. rewrite sumZ_app, C1, Hp. cbn. lia.
      - rewrite peffort_snoc, C2, Hp. reflexivity. }
    assert (Hw : (cw + fst d)%Z = pweight (firstn (S (length pre)) bins)) by apply Pn.
    inversion G as [E0 E1|E0 E1|n ms0 k G' Hk E0 E1|n ms0 k G' Hk E0 E1]; subst ms.
    + inversion F; subst p. cbn [rev].
      apply (IH (pre ++ [d]) _ _ _ [1]); rewrite ?Ls, <- ?E0; auto.
      * rewrite <- E0 in Pn. exact Pn.
      * constructor; [|constructor]. rewrite <- E0 in Pn. exact Pn.
      * constructor.
    + inversion F as [|? xy ? ? Hxy F2]; subst p. inversion F2; subst. cbn [rev app]. destruct xy as [x y]. destruct Hxy as [Hx Hy]. cbn [fst] in Hx.
      rewrite Hw, Hx, <- E0. destruct (_ <=? _)%Z eqn:Le.
      * apply (IH (pre ++ [d]) _ _ _ [1; 2]); rewrite ?Ls, <- ?E0; auto.
        -- rewrite <- E0 in Pn, Hw. rewrite Hw in Pn. exact Pn.
        -- constructor; [split; [reflexivity|exact Hy]|]. constructor; [|constructor]. rewrite <- E0 in Pn, Hw. rewrite Hw in Pn. exact Pn.
        -- apply (Gadd _ _ 0 []); [constructor|lia].
      * apply (IH (pre ++ [d]) _ _ _ [1]); rewrite ?Ls, <- ?E0; auto.
        -- rewrite <- E0 in Pn, Hw. rewrite Hw in Pn. exact Pn.
        -- constructor; [split; [reflexivity|exact Hy]|constructor].
        -- apply (Gskip _ _ 0 []); [constructor|lia].
    + change (ms0 ++ [k; S (S n)]) with (ms0 ++ [k] ++ [S (S n)]) in F. rewrite app_assoc in F.
      apply Forall2_snoc_inv in F as (p' & [x y] & -> & F & [Hx Hy]). cbn [fst] in Hx. rewrite rev_app_distr. cbn [rev app].
      rewrite Hw, Hx, <- E0. destruct (_ <=? _)%Z eqn:Le.
      * apply (IH (pre ++ [d]) _ _ _ (((ms0 ++ [k]) ++ [S (S n)]) ++ [S (S (S n))])); rewrite ?Ls, <- ?E0; auto.
        -- rewrite <- E0 in Pn, Hw. rewrite Hw in Pn. exact Pn.
        -- apply Forall2_snoc; [apply Forall2_snoc; [exact F|split; [reflexivity|exact Hy]]|]. rewrite <- E0 in Pn, Hw. rewrite Hw in Pn. exact Pn.
        -- rewrite <- app_assoc. apply (Gadd _ _ (S n) (ms0 ++ [k])); [|lia]. rewrite <- app_assoc. cbn [app]. rewrite <- E0 in G. exact G.
      * apply (IH (pre ++ [d]) _ _ _ ((ms0 ++ [k]) ++ [S (S n)])); rewrite ?Ls, <- ?E0; auto.
        -- rewrite <- E0 in Pn, Hw. rewrite Hw in Pn. exact Pn.
        -- apply Forall2_snoc; [exact F|split; [reflexivity|exact Hy]].
        -- apply (Gskip _ _ (S n) (ms0 ++ [k])); [|lia]. rewrite <- app_assoc. cbn [app]. rewrite <- E0 in G. exact G.
    + apply Forall2_snoc_inv in F as (p' & [x y] & -> & F & [Hx Hy]). cbn [fst] in Hx. rewrite rev_app_distr. cbn [rev app].
      rewrite Hw, Hx, <- E0. destruct (_ <=? _)%Z eqn:Le.
      * apply (IH (pre ++ [d]) _ _ _ ((ms0 ++ [k]) ++ [S (S (S n))])); rewrite ?Ls, <- ?E0; auto.
        -- rewrite <- E0 in Pn, Hw. rewrite Hw in Pn. exact Pn.
        -- apply Forall2_snoc; [apply Forall2_snoc; [exact F|split; [reflexivity|exact Hy]]|]. rewrite <- E0 in Pn, Hw. rewrite Hw in Pn. exact Pn.
        -- rewrite <- app_assoc. apply (Gadd _ _ (S n) ms0); [|lia]. rewrite <- E0 in G. exact G.
      * apply (IH (pre ++ [d]) _ _ _ (ms0 ++ [k])); rewrite ?Ls, <- ?E0; auto.
        -- rewrite <- E0 in Pn, Hw. rewrite Hw in Pn. exact Pn.
        -- apply Forall2_snoc; [exact F|split; [reflexivity|exact Hy]].
        -- apply (Gskip _ _ (S n) ms0); [|lia]. rewrite <- E0 in G. exact G.
Qed.
(** The points, but the last, are sums of initial parts of the list, selected
    greedily: the first one, then each as soon as a 200th of the weight, rounded
    down, was added.  The last point is the sum of all. *)
Theorem C57_points W bins : exists ms p c, points W bins = p ++ [c] /\ is_point bins (length bins) c /\ Forall2 (is_point bins) ms p /\
  greedy (fun n => pweight (firstn n bins)) (W / 200) (length bins) ms.
Proof.
  destruct (points_inv (W / 200) bins bins [] [] 0%Z 0%Q []) as (ms & p & c & E & C & F & G); cbn; try reflexivity.
  - split; reflexivity.
  - constructor.
  - constructor.
  - exists ms, p, c. split; [|auto]. unfold points. rewrite E. reflexivity.
Qed.
Lemma greedy_last f w n ms : greedy f w n ms -> Forall (fun k => 1 <= k <= n) ms.
Proof.
  induction 1 as [| |n ms k G IH H|n ms k G IH H]; [constructor|repeat constructor| |].
  - change (ms ++ [k; S (S n)]) with (ms ++ [k] ++ [S (S n)]). rewrite app_assoc. apply Forall_app. split; [|constructor; [lia|constructor]].
    eapply Forall_impl; [|exact IH]. cbn. intros. lia.
  - eapply Forall_impl; [|exact IH]. cbn. intros. lia.
Qed.
Lemma SS_snoc {A} (R : A -> A -> Prop) l x : StronglySorted R l -> Forall (fun a => R a x) l -> StronglySorted R (l ++ [x]).
Proof.
  induction l as [|a l IH]; intros S F; cbn [app]; [repeat constructor|]. inversion S; inversion F; subst.
  constructor; [auto|]. apply Forall_app. split; [assumption|repeat constructor; assumption].
Qed.
Lemma greedy_sorted f w n ms : greedy f w n ms -> StronglySorted lt ms.
Proof.
  induction 1 as [| |n ms k G IH H|n ms k G IH H]; [constructor|repeat constructor| |exact IH].
  pose proof (greedy_last _ _ _ _ G) as F. change (ms ++ [k; S (S n)]) with (ms ++ [k] ++ [S (S n)]). rewrite app_assoc.
  apply SS_snoc; [exact IH|]. eapply Forall_impl; [|exact F]. cbn. intros. lia.
Qed.
Lemma greedy_size f w n ms : greedy f w n ms -> (0 <= w)%Z -> (forall i, i < n -> (f i < f (S i))%Z) -> f 0 = 0%Z ->
  match rev ms with [] => n = 0 | k :: _ => ((Z.of_nat (length ms) - 1) * Z.max w 1 + 1 <= f k)%Z /\ k <= n end.
Proof.
  intros G Hw Hf H0.
  assert (Hm : forall i j, i <= j -> j <= n -> (f i <= f j)%Z).
  { intros i j. induction 1 as [|j L IH]; intros Hj; [lia|]. specialize (IH ltac:(lia)). specialize (Hf j ltac:(lia)). lia. }
  assert (Hs : forall i j, i < j -> j <= n -> (f i < f j)%Z).
  { intros i j L Hj. specialize (Hf i ltac:(lia)). specialize (Hm (S i) j ltac:(lia) ltac:(lia)). lia. }
  clear Hf. induction G as [| |n ms k G IH H|n ms k G IH H].
  - reflexivity.
  - cbn. specialize (Hs 0 1 ltac:(lia) ltac:(lia)). lia.
  - specialize (IH ltac:(intros; apply Hm; lia) ltac:(intros; apply Hs; lia)).
    change (ms ++ [k; S (S n)]) with (ms ++ [k] ++ [S (S n)]). rewrite app_assoc, rev_app_distr. cbn [rev app].
    rewrite rev_app_distr in IH. cbn [rev app] in IH. rewrite app_length in *. cbn [length] in *. destruct IH as [IH Lk].
    split; [|lia]. specialize (Hs k (S (S n)) ltac:(lia) ltac:(lia)).
    replace (Z.of_nat (length (ms ++ [k]) + 1) - 1)%Z with ((Z.of_nat (length ms + 1) - 1) + 1)%Z by (rewrite app_length; cbn; lia).
    rewrite Z.mul_add_distr_r. destruct (Z.max_spec w 1) as [[? E]|[? E]]; rewrite E in *; lia.
  - specialize (IH ltac:(intros; apply Hm; lia) ltac:(intros; apply Hs; lia)).
    rewrite rev_app_distr in *. cbn [rev app] in *. destruct IH. split; [assumption|lia].
Qed.
Lemma pweight_step bins i : Forall (fun d => 0 < fst d)%Z bins -> i < length bins -> (pweight (firstn i bins) < pweight (firstn (S i) bins))%Z.
Proof.
  revert i. induction bins as [|d bins IH]; intros i F L; [cbn in L; lia|]. inversion F; subst. cbn [length] in L. unfold pweight in *.
  destruct i as [|i]; [cbn; lia|]. cbn [firstn]. rewrite !sumZ_cons. specialize (IH i ltac:(assumption) ltac:(lia)). cbn [firstn] in IH. lia.
Qed.
(** There are at most 400 points... *)
Theorem C57_size bins : Forall (fun d => 0 < fst d)%Z bins -> length (points (pweight bins) bins) <= 400.
Proof.
  intros F. destruct (C57_points (pweight bins) bins) as (ms & p & c & -> & _ & F2 & G). rewrite app_length. cbn [length].
  rewrite <- (Forall2_length _ _ _ F2). set (W := pweight bins) in *.
  assert (HW : (0 <= W)%Z) by (apply sumZ_nonneg; intros d I; rewrite Forall_forall in F; specialize (F d I); lia).
  pose proof (Z.div_mod W 200 ltac:(lia)) as D. pose proof (Z.mod_pos_bound W 200 ltac:(lia)) as B.
  assert (Hq : (0 <= W / 200)%Z) by (apply Z.div_pos; lia).
  apply greedy_size in G; [|exact Hq|intros; apply pweight_step; assumption|reflexivity].
  destruct (rev ms) as [|k r] eqn:Er; [apply (f_equal (@length _)) in Er; rewrite rev_length in Er; cbn in Er; lia|].
  destruct G as [G Lk].
  assert (Lw : (pweight (firstn k bins) <= W)%Z).
  { unfold W, pweight. rewrite <- (firstn_skipn k bins) at 2. rewrite sumZ_app.
    assert (0 <= sumZ fst (skipn k bins))%Z; [|lia]. apply sumZ_nonneg. intros d I. rewrite Forall_forall in F.
    assert (In d bins) as I' by (rewrite <- (firstn_skipn k bins); apply in_or_app; auto). specialize (F d I'). lia. }
  destruct (Z.max_spec (W / 200) 1) as [[? E]|[? E]]; rewrite E in *; nia.
Qed.
(** ... but there can be as many, although 200 is the number asked for. *)
Theorem C57_size_tight : exists bins, Forall (fun d => 0 < fst d)%Z bins /\ length (points (pweight bins) bins) = 400.
Proof.
  exists (repeat (1%Z, 1%Q) 399). split; [|vm_compute; reflexivity].
  apply Forall_forall. intros d I. apply repeat_spec in I. subst d. cbn. lia.
Qed.
Lemma pweight_mono bins i j : Forall (fun d => 0 < fst d)%Z bins -> i <= j -> (pweight (firstn i bins) <= pweight (firstn j bins))%Z.
Proof.
  intros F. revert i j. induction bins as [|d bins IH]; intros i j L; [rewrite !firstn_nil; lia|]. inversion F; subst.
  destruct j as [|j]; [replace i with 0 by lia; lia|]. destruct i as [|i]; cbn [firstn]; unfold pweight in *; rewrite ?sumZ_cons.
  - specialize (IH ltac:(assumption) 0 j ltac:(lia)). cbn [firstn sumZ fold_right map] in *. change (sumZ fst (@nil (Z * Q))) with 0%Z in *. lia.
  - specialize (IH ltac:(assumption) i j ltac:(lia)). lia.
Qed.
Lemma peffort_mono bins i j : Forall (fun d => 0 < fst d)%Z bins -> Forall (fun d => 0 <= snd d)%Q bins -> i <= j ->
  (peffort (firstn i bins) <= peffort (firstn j bins))%Q.
Proof.
  intros F F'. revert i j. induction bins as [|d bins IH]; intros i j L; [rewrite !firstn_nil; apply Qle_refl|].
  inversion F; inversion F'; subst.
  assert (0 <= snd d * inject_Z (fst d))%Q by (apply Qmult_le_0_compat; [assumption|apply Qlt_le_weak, injQ_pos; assumption]).
  destruct j as [|j]; [replace i with 0 by lia; apply Qle_refl|]. destruct i as [|i]; cbn [firstn]; unfold peffort in *; cbn [qsum].
  - specialize (IH ltac:(assumption) ltac:(assumption) 0 j ltac:(lia)). cbn [firstn qsum] in *. lra.
  - specialize (IH ltac:(assumption) ltac:(assumption) i j ltac:(lia)). lra.
Qed.
(** The curve: both coordinates grow from the first point to the last one, which
    is (1, 1). *)
Theorem C57_curve W bins c : Forall (fun d => 0 < fst d)%Z bins -> Forall (fun d => 0 <= snd d)%Q bins ->
  normalized (points W bins) = Some c ->
  StronglySorted (fun a b => fst a <= fst b /\ snd a <= snd b)%Q c /\
  Forall (fun a => 0 <= fst a <= 1 /\ 0 <= snd a <= 1)%Q c /\
  exists c' a, c = c' ++ [a] /\ (fst a == 1)%Q /\ (snd a == 1)%Q.
Proof.
  intros F F' E. destruct (C57_points W bins) as (ms & p & l & Ep & Hl & F2 & G). rewrite Ep in E.
  unfold normalized in E. rewrite last_last in E. destruct l as [cw ce]. destruct (_ || _) eqn:Ez; [discriminate|].
  apply orb_false_iff in Ez as [Zw Ze]. apply Z.eqb_neq in Zw. apply Qeq_bool_neq in Ze. inversion E as [Ec]. clear E.
  pose proof (greedy_sorted _ _ _ _ G) as So. pose proof (greedy_last _ _ _ _ G) as La.
  destruct Hl as [Hw He]. cbn [fst snd] in Hw, He. rewrite firstn_all in *.
  assert (P0 : (0 < cw)%Z) by (pose proof (pweight_mono bins 0 (length bins) F ltac:(lia)) as M; rewrite firstn_all in M; cbn in M; unfold pweight in *; cbn in *; lia).
  assert (E0 : (0 < ce)%Q).
  { pose proof (peffort_mono bins 0 (length bins) F F' ltac:(lia)) as M; rewrite firstn_all in M. rewrite <- He in M.
    apply Qle_lteq in M as [M|M]; [exact M|]. exfalso. apply Ze. symmetry. exact M. }
  set (sc := fun xy : Z * Q => (inject_Z (fst xy) / inject_Z cw, snd xy / ce)%Q).
  assert (Lx : forall a b, (a <= b)%Z -> (inject_Z a / inject_Z cw <= inject_Z b / inject_Z cw)%Q).
  { intros a b L. unfold Qdiv. apply Qmult_le_compat_r; [rewrite <- Zle_Qle; exact L|]. apply Qlt_le_weak, Qinv_lt_0_compat, injQ_pos, P0. }
  assert (Ly : forall a b, (a <= b)%Q -> (a / ce <= b / ce)%Q).
  { intros a b L. unfold Qdiv. apply Qmult_le_compat_r; [exact L|]. apply Qlt_le_weak, Qinv_lt_0_compat, E0. }
  assert (X1 : (inject_Z cw / inject_Z cw == 1)%Q) by (unfold Qdiv; apply Qmult_inv_r, injQ_nz, Zw).
  assert (Y1 : (ce / ce == 1)%Q) by (unfold Qdiv; apply Qmult_inv_r, Ze).
  assert (Up : forall n xy, is_point bins n xy -> (0 <= fst (sc xy) <= 1 /\ 0 <= snd (sc xy) <= 1)%Q).
  { intros n [x y] [Hx Hy]. cbn [fst snd sc] in *. pose proof (pweight_mono bins 0 n F ltac:(lia)) as A1. pose proof (peffort_mono bins 0 n F F' ltac:(lia)) as A2.
    assert (A3 : (x <= cw)%Z).
    { rewrite Hx, Hw. rewrite <- (firstn_all bins) at 2. destruct (Nat.le_gt_cases n (length bins)) as [L|L]; [apply pweight_mono; assumption|].
      rewrite (firstn_all2 bins) by lia. rewrite firstn_all. lia. }
    assert (A4 : (y <= ce)%Q).
    { rewrite Hy, He. rewrite <- (firstn_all bins) at 2. destruct (Nat.le_gt_cases n (length bins)) as [L|L]; [apply peffort_mono; assumption|].
      rewrite (firstn_all2 bins) by lia. rewrite firstn_all. apply Qle_refl. }
    cbn [firstn] in A1, A2. change (pweight []) with 0%Z in A1. rewrite <- Hx in A1. change (peffort []) with 0%Q in A2. rewrite <- Hy in A2.
    apply Lx in A1, A3. apply Ly in A2, A4. unfold sc. cbn [fst snd].
    assert (inject_Z 0 / inject_Z cw == 0)%Q by reflexivity. assert (0 / ce == 0)%Q by (unfold Qdiv; apply Qmult_0_l). lra. }
  rewrite map_app. split; [|split].
  - apply SS_snoc.
    + clear -F2 So F F' Lx Ly. revert So. induction F2 as [|n xy ms p H F2 IH]; intros So; [constructor|]. inversion So as [|? ? S' Fa]; subst.
      cbn [map]. constructor; [auto|]. apply Forall_map. clear IH S' So. induction F2 as [|n' xy' ms p H' F2 IH]; [constructor|]. inversion Fa; subst.
      constructor; [|auto]. unfold sc. cbn [fst snd]. destruct H as [Hx Hy], H' as [Hx' Hy']. split.
      * apply Lx. rewrite Hx, Hx'. apply pweight_mono; [assumption|lia].
      * apply Ly. rewrite Hy, Hy'. apply peffort_mono; [assumption|assumption|lia].
    + apply Forall_map. clear -F2 Up X1 Y1. induction F2 as [|n xy ms p H F2 IH]; [constructor|]. constructor; [|exact IH].
      destruct (Up n xy H) as [[_ A] [_ B]]. unfold sc at 2 4. cbn [fst snd]. rewrite X1, Y1. split; [exact A|exact B].
  - apply Forall_app. split.
    + apply Forall_map. clear -F2 Up. induction F2 as [|n xy ms p H F2 IH]; [constructor|]. constructor; [|exact IH]. apply (Up n xy H).
    + constructor; [|constructor]. apply (Up (length bins)). split; cbn [fst snd]; rewrite firstn_all; assumption.
  - cbn [map fst snd]. eexists _, _. split; [reflexivity|]. cbn [fst snd]. split; [exact X1|exact Y1].
Qed.
(** What the curve is made of: the weight of each text triad and its mean effort,
    by decreasing weight. *)
Definition effort_bins (L : layout) (m : model Qnum) (ts : list (triad * Z)) (ks : list (list cell)) (bins : list (Z * Q)) : Prop :=
  NoDup ks /\ (forall k, In k ks <-> exists t, In t (dkeys ts) /\ types_triad L k t = true) /\
  Forall2 (fun k d => fst d = amount (types_triad L k) ts /\ (snd d == mean scoreQ m (ledger_of L k ts))%Q) ks bins /\
  StronglySorted (fun a b => fst b <= fst a)%Z bins /\ pweight bins = sumZ snd ts.
Theorem C57_data L m ts r : triadEffortData L m ts = Ok r ->
  exists ks bins, effort_bins L m ts ks bins /\ r = normalized (points (sumZ snd ts) bins).
Proof.
  intros E. unfold triadEffortData in E. apply bind_inv in E as ([b W] & Eb & E). inversion E as [Er]. clear E r Er.
  apply triad_bins_ok in Eb as (HW & Wf & Kb & Vb & Sc). cbn [fst snd] in *.
  pose proof (sorted_by_ok by_weight (fun x y => leb_by_total (fun d => bweight (snd d)) y x)
      (fun x y z H1 H2 => leb_by_trans (fun d => bweight (snd d)) z y x H2 H1) b) as (Pb & Sb & _).
  set (sb := sorted_by by_weight b) in *. clearbody sb.
  exists (map fst sb), (map (fun d => (bweight (snd d), bin_effort (snd d))) sb).
  assert (Nd : NoDup (map fst sb)) by (apply (Permutation_NoDup (Permutation_sym (Permutation_map fst Pb))), Wf).
  assert (Ks : forall k, In k (map fst sb) <-> exists t, In t (dkeys ts) /\ types_triad L k t = true).
  { intros k. rewrite <- Kb. split; apply Permutation_in; [|symmetry]; apply (Permutation_map fst Pb). }
  assert (Fs : Forall2 (fun k d => fst d = amount (types_triad L k) ts /\ (snd d == mean scoreQ m (ledger_of L k ts))%Q)
     (map fst sb) (map (fun d => (bweight (snd d), bin_effort (snd d))) sb)).
  { assert (G : forall d, In d sb -> dget b (fst d) = Some (snd d)) by (intros [k d] I; apply (dget_In_iff _ _ _ Wf), (Permutation_in _ Pb), I).
    clear -G Vb. induction sb as [|d sb IH]; cbn [map]; constructor.
    - destruct (Vb _ _ (G d (or_introl eq_refl))) as (Hw & Hm & Hc & Ha). cbn [fst snd] in *. split; [exact Hw|].
      unfold bin_effort, reffort. apply mean_alt; assumption.
    - apply IH. intros x I. apply G. right. exact I. }
  split; [|rewrite HW; reflexivity]. split; [exact Nd|]. split; [exact Ks|]. split; [exact Fs|]. split.
  - apply SS_map. clear -Sb. induction Sb as [|d sb _ IH F]; constructor; [exact IH|]. eapply Forall_impl; [|exact F].
    intros d' H. unfold by_weight in H. cbn [fst]. lia.
  - transitivity (sumZ (fun k => amount (types_triad L k) ts) (map fst sb)).
    + unfold pweight. clear -Fs. induction Fs as [|k d ks bs (H & _) _ IH]; [reflexivity|]. rewrite !sumZ_cons, IH, H. reflexivity.
    + unfold amount. rewrite sumZ_swap. apply sumZ_ext_in. intros [t v] I. cbn [fst snd].
      destruct (Sc t (in_map fst _ _ I)) as [[k Ek] _]. apply (sum_one ts (fun k' => types_triad L k' t) v k _ Nd).
      * apply Ks. exists t. split; [apply (in_map fst _ _ I)|]. apply types_triad_spec, Ek.
      * intros k'. rewrite types_triad_spec, Ek. split; congruence.
Qed.
Lemma qsum_zero {A} (f : A -> Q) l : (forall x, In x l -> 0 <= f x)%Q -> (qsum f l == 0)%Q -> forall x, In x l -> (f x == 0)%Q.
Proof.
  induction l as [|a l IH]; intros N Z x I; [destruct I|]. cbn [qsum] in Z.
  assert (0 <= f a)%Q by (apply N; left; reflexivity).
  assert (0 <= qsum f l)%Q by (apply qsum_nonneg; intros y Iy; apply N; right; exact Iy).
  destruct I as [<-|I]; [lra|]. apply IH; [|lra|exact I]. intros y Iy. apply N. right. exact Iy.
Qed.
Lemma ledger_weight L k ts : (weight (ledger_of L k ts) == inject_Z (amount (types_triad L k) ts))%Q.
Proof.
  unfold weight, ledger_of, amount. induction ts as [|[t v] ts IH]; [reflexivity|]. rewrite sumZ_cons. cbn [filter fst snd].
  destruct (types_triad L k t); cbn [map qsum fst snd].
  - rewrite IH, inject_Z_plus. reflexivity.
  - rewrite IH, Z.add_0_l. reflexivity.
Qed.
(** With positive counts and efforts that are not negative the curve is as
    described by [C57_curve], with at most 400 points; there is one unless all
    efforts are zero. *)
Theorem C57_effort_curve L m ts r : triadEffortData L m ts = Ok r -> all_counts (fun v => 0 < v)%Z ts ->
  (forall t e, In t (dkeys ts) -> triadCompute m t = Ok e -> (0 <= e)%Q) ->
  match r with
  | None => ts = [] \/ forall t e, In t (dkeys ts) -> triadCompute m t = Ok e -> (e == 0)%Q
  | Some c => length c <= 400 /\ StronglySorted (fun a b => fst a <= fst b /\ snd a <= snd b)%Q c /\
      Forall (fun a => 0 <= fst a <= 1 /\ 0 <= snd a <= 1)%Q c /\ exists c' a, c = c' ++ [a] /\ (fst a == 1)%Q /\ (snd a == 1)%Q
  end.
Proof.
  intros E Pos Nn. destruct (C57_data _ _ _ _ E) as (ks & bins & (Nd & Ks & Fb & _ & Sw) & ->).
  assert (Hpos : forall k, In k ks -> (0 < amount (types_triad L k) ts)%Z).
  { intros k I. apply Ks in I as (t & It & Tt). clear -It Tt Pos. unfold amount, all_counts in *. induction Pos as [|[t' v] ts Hv F IH]; [destruct It|].
    rewrite sumZ_cons. cbn [fst snd] in *. destruct It as [<-|It].
    - cbn [fst] in *. rewrite Tt. assert (0 <= sumZ (fun kv => if types_triad L k (fst kv) then snd kv else 0%Z) ts)%Z; [|lia].
      apply sumZ_nonneg. intros x I. rewrite Forall_forall in F. specialize (F x I). cbn in F. destruct (types_triad L k (fst x)); lia.
    - specialize (IH It). destruct (types_triad L k t'); lia. }
  assert (Hled : forall k t w, In (t, w) (ledger_of L k ts) -> (0 <= w)%Q /\ (0 <= cost scoreQ m t)%Q).
  { intros k t w I. unfold ledger_of in I. apply in_map_iff in I as ([t' v] & Et & I). inversion Et; subst; clear Et.
    apply filter_In in I as [I _]. split.
    - unfold all_counts in Pos. rewrite Forall_forall in Pos. specialize (Pos _ I). cbn in *. apply Qlt_le_weak, injQ_pos, Pos.
    - unfold cost, scoreQ. destruct (triadCompute m t) eqn:Et; [|apply Qle_refl]. eapply Nn; [|exact Et]. apply (in_map fst _ _ I). }
  assert (F1 : Forall (fun d => 0 < fst d)%Z bins).
  { clear -Fb Hpos. induction Fb as [|k d ks bins (H & _) _ IH]; [constructor|]. constructor; [rewrite H; apply Hpos; left; reflexivity|].
    apply IH. intros k' I. apply Hpos. right. exact I. }
  assert (F2 : Forall (fun d => 0 <= snd d)%Q bins).
  { clear -Fb Hled. induction Fb as [|k d ks bins (_ & H) _ IH]; [constructor|]. constructor; [|exact IH]. rewrite H. unfold mean.
    destruct (Qeq_dec _ 0) as [Z|Z]; [apply Qle_refl|]. unfold Qdiv. apply Qmult_le_0_compat.
    - apply qsum_nonneg. intros [t w] I. destruct (Hled _ _ _ I). cbn [fst snd]. apply Qmult_le_0_compat; assumption.
    - apply Qinv_le_0_compat. apply qsum_nonneg. intros [t w] I. apply (Hled _ _ _ I). }
  destruct (normalized (points (sumZ snd ts) bins)) as [c|] eqn:En.
  - split; [|apply (C57_curve (sumZ snd ts) bins c F1 F2 En)]. rewrite <- Sw in En. pose proof (C57_size bins F1) as L0.
    unfold normalized in En. destruct (last (points (pweight bins) bins) (0%Z, 0%Q)) as [x y]. destruct (_ || _); [discriminate|].
    inversion En. rewrite map_length. exact L0.
  - destruct (C57_points (sumZ snd ts) bins) as (ms & p & [cw ce] & Ep & [Hw He] & _). rewrite Ep in En. unfold normalized in En.
    rewrite last_last in En. cbn [fst snd] in *. rewrite firstn_all in *. destruct (_ || _) eqn:Ez; [|discriminate]. clear En.
    apply orb_true_iff in Ez as [Ez|Ez].
    + left. apply Z.eqb_eq in Ez. rewrite Hw, Sw in Ez. destruct Pos as [|[t v] ts Hv F]; [reflexivity|]. rewrite sumZ_cons in Ez. cbn [snd] in *.
      assert (0 <= sumZ snd ts)%Z; [|lia]. apply sumZ_nonneg. intros x I. rewrite Forall_forall in F. specialize (F x I). cbn in F. lia.
    + right. apply Qeq_bool_iff in Ez. rewrite He in Ez. intros t e It Et.
      assert (Hz : forall d, In d bins -> (snd d * inject_Z (fst d) == 0)%Q).
      { apply qsum_zero; [|exact Ez]. intros d I. rewrite Forall_forall in F1, F2.
        apply Qmult_le_0_compat; [apply F2, I|apply Qlt_le_weak, injQ_pos, F1, I]. }
      unfold triadEffortData in E. apply bind_inv in E as ([b W] & Eb & _). apply triad_bins_ok in Eb as (_ & _ & _ & _ & Sc). cbn [fst] in Sc.
      destruct (Sc t It) as [[k Ek] _]. apply types_triad_spec in Ek.
      assert (Ik : In k ks) by (apply Ks; eauto). specialize (Hpos k Ik).
      assert (exists d, In d bins /\ (snd d == mean scoreQ m (ledger_of L k ts))%Q /\ fst d = amount (types_triad L k) ts) as (d & Id & Hm & Ha).
      { clear -Fb Ik. induction Fb as [|k' d ks bins (H & H') _ IH]; [destruct Ik|]. destruct Ik as [->|Ik]; [exists d; cbn; auto|].
        destruct (IH Ik) as (d' & A & B). exists d'. cbn. auto. }
      specialize (Hz d Id). rewrite Hm, Ha in Hz. apply injQ_pos in Hpos as Pq. unfold mean in Hz.
      pose proof (ledger_weight L k ts) as Lw. destruct (Qeq_dec (weight _) 0) as [Z|Z]; [rewrite Z in Lw; rewrite <- Lw in Pq; lra|].
      rewrite <- Lw in Hz. assert (T0 : (total scoreQ m (ledger_of L k ts) == 0)%Q).
      { rewrite <- Hz. field. exact Z. }
      apply in_map_iff in It as ([t' v] & Et' & It). cbn [fst] in Et'. subst t'.
      assert (Il : In (t, inject_Z v) (ledger_of L k ts)).
      { unfold ledger_of. apply in_map_iff. exists (t, v). split; [reflexivity|]. apply filter_In. auto. }
      pose proof (qsum_zero _ _ (fun x I => Qmult_le_0_compat _ _ (proj1 (Hled k (fst x) (snd x) ltac:(destruct x; exact I))) (proj2 (Hled k (fst x) (snd x) ltac:(destruct x; exact I)))) T0 _ Il) as C0.
      cbn [fst snd] in C0. unfold cost, scoreQ in C0. rewrite Et in C0. unfold all_counts in Pos. rewrite Forall_forall in Pos. specialize (Pos _ It). cbn [snd] in Pos.
      apply injQ_pos in Pos. apply Qmult_integral in C0 as [C0|C0]; [lra|exact C0].
Qed.

(** * Examples *)
(** Two keys type 0x627; the shifted layer has no letters. *)
Definition ex_layout : layout := layout_new
  [mkLayer [frozenset []] [("Cl2", CText [0x627]%N); ("Cl3", CText [0x628]%N); ("Dl3", CText [0x627]%N)];
   mkLayer [frozenset ["El_shift"]; frozenset ["Er_shift"]] [("Cl2", CText [33]%N)]].
Definition ex_category (c : N) : string := if N.ltb c 0x600 then "Po" else "Lo".
Definition ex_combinations : list (comb * Z) :=
  [(PropsOptimize.low "Cl2", 3); (PropsOptimize.low "Dl3", 2); (PropsOptimize.low "Cl3", 4); (PropsOptimize.up "Cl2", 7)]%Z.
Example C55_example : all_counts (fun v => 0 <= v)%Z ex_combinations /\
  res_map (map (fun r => (lletter r, labs r, lcum r, Qred (lrel r), Qred (lcumRel r)))) (letterfreq ex_category ex_layout ex_combinations) =
  Ok [([0x628]%N, 4, 9, 4 # 9, 1 # 1); ([0x627]%N, 5, 5, 5 # 9, 5 # 9)]%Z%Q.
Proof. split; [repeat constructor; discriminate|]. vm_compute. reflexivity. Qed.
Definition ex_triads : list (triad * Z) :=
  let l := PropsOptimize.low in
  [([l "Cl2"; l "Cl2"; l "Cl3"], 5); ([l "Cl3"; l "Cl3"; PropsOptimize.up "Cl2"], 1); ([l "Dl3"; l "Cl2"; l "Cl3"], 2); ([l "Cl3"; l "Cl3"; l "Cl3"], 4)]%Z.
(** Nine tenths of the weight are two of the three text triads. *)
Example C56_example : all_counts (fun v => 0 <= v)%Z ex_triads /\
  res_map (map (fun l => (fst l, Qred (snd l)))) (triadfreq (fun t => Ok t) (9 # 10) true ByEffort 0 ex_layout PropsOptimize.mQ ex_triads) =
    Ok [([0x628; 0x628; 0x628]%N, 4%Z, 49 # 1); ([0x627; 0x627; 0x628]%N, 7%Z, 171 # 7)]%Q /\
  res_map (map (fun l => (fst l, Qred (snd l)))) (triadfreq (fun t => Ok t) (1 # 2) false ByWeight 3 ex_layout PropsOptimize.mQ ex_triads) =
    Ok [([0x627; 0x627; 0x628]%N, 7%Z, 171 # 7)]%Q.
Proof. split; [repeat constructor; discriminate|]. vm_compute. split; reflexivity. Qed.
Example C57_example : all_counts (fun v => 0 < v)%Z ex_triads /\
  res_map (option_map (map (fun p => (Qred (fst p), Qred (snd p))))) (triadEffortData ex_layout PropsOptimize.mQ ex_triads) =
    Ok (Some [(7 # 12, 171 # 452); (11 # 12, 367 # 452); (1 # 1, 1 # 1); (1 # 1, 1 # 1)])%Q.
Proof. split; [repeat constructor|]. vm_compute. reflexivity. Qed.


Print Assumptions C55_rows.
Print Assumptions C55_shares.
Print Assumptions C55_succeeds.
Print Assumptions C56_printed.
Print Assumptions C56_cutoff.
Print Assumptions C56_limit.
Print Assumptions C56_succeeds.
Print Assumptions C57_points.
Print Assumptions C57_size.
Print Assumptions C57_size_tight.
Print Assumptions C57_curve.
Print Assumptions C57_data.
Print Assumptions C57_effort_curve.
