(** Lemmas about the generated Windows driver. *)
From Verif Require Import Base LayoutModel DataWinkbd WinkbdModel WinkbdSpec.
Open Scope string_scope.
Open Scope list_scope.

#[local] Opaque vkval vkflags wchars.
(** * Macros *)
Definition all_defs : list (string * N) :=
  enumToCDefine KVk vkval ++ enumToCDefine KFl vkflags ++ enumToCDefine KWc wchars.
Lemma canonical_get cls v : NoDup (dkeys cls) -> In v (dvals cls) -> dget cls (canonical cls v) = Some v.
Proof.
  unfold dkeys, dvals. induction cls as [|[n w] cls IH]; cbn [map canonical fst snd]; intros Hd Hv; [destruct Hv|].
  inversion Hd as [|? ? Hn Hd']; subst. destruct (N.eqb_spec v w) as [->|Hne].
  - cbn. rewrite String.eqb_refl. reflexivity.
  - destruct Hv as [Hv|Hv]; [cbn in Hv; congruence|]. specialize (IH Hd' Hv). cbn [dget].
    destruct (eqb_spec (canonical cls v) n) as [E|]; [|exact IH].
    exfalso. apply Hn. rewrite <- E. apply dget_key. eauto.
Qed.
Lemma app_str_inj p a b : (p ++ a)%string = (p ++ b)%string -> a = b.
Proof. induction p as [|c p IH]; cbn; [auto|]. intros E; inversion E; auto. Qed.
Lemma vkval_nodup : NoDup (dkeys vkval).
Proof. apply nodupb_NoDup. vm_compute. reflexivity. Qed.
Lemma vkflags_nodup : NoDup (dkeys vkflags).
Proof. apply nodupb_NoDup. vm_compute. reflexivity. Qed.
Lemma wchars_nodup : NoDup (dkeys wchars).
Proof. repeat constructor. intros []. Qed.
Lemma canonical_inj cls v w : NoDup (dkeys cls) -> In v (dvals cls) -> In w (dvals cls) -> canonical cls v = canonical cls w -> v = w.
Proof.
  intros Hd Hv Hw E. apply (canonical_get cls v Hd) in Hv. apply (canonical_get cls w Hd) in Hw. congruence.
Qed.
Lemma cdefName_inj k k' : known k -> known k' -> cdefName k = cdefName k' -> k = k'.
Proof.
  destruct k as [v|v|v], k' as [w|w|w]; cbn [known cdefName]; intros Hk Hk' E; try (cbn in E; congruence).
  - apply app_str_inj in E. f_equal. eapply canonical_inj; eauto using vkval_nodup.
  - apply app_str_inj in E. f_equal. eapply canonical_inj; eauto using vkflags_nodup.
  - apply app_str_inj in E. f_equal. eapply canonical_inj; eauto using wchars_nodup.
Qed.
Lemma In_defs s v : In (s, v) all_defs <-> exists k, known k /\ s = cdefName k /\ v = kval k.
Proof.
  unfold all_defs. rewrite !in_app_iff. unfold enumToCDefine. rewrite !in_map_iff. unfold known, dvals. split.
  - intros [(nv & E & Hi)|[(nv & E & Hi)|(nv & E & Hi)]]; inversion E; subst.
    + exists (KVk (snd nv)). split; [apply in_map, Hi|auto].
    + exists (KFl (snd nv)). split; [apply in_map, Hi|auto].
    + exists (KWc (snd nv)). split; [apply in_map, Hi|auto].
  - intros ([w|w|w] & Hk & -> & ->); apply in_map_iff in Hk as (nv & <- & Hi).
    + left. exists nv. auto.
    + right; left. exists nv. auto.
    + right; right. exists nv. auto.
Qed.
Lemma macro_iff s v : macro all_defs s v <-> exists k, known k /\ s = cdefName k /\ v = kval k.
Proof.
  unfold macro. rewrite In_defs. split; [tauto|]. intros (k & Hk & -> & ->). split; [eauto|].
  intros w Hw. apply In_defs in Hw as (k' & Hk' & E & ->). apply cdefName_inj in E; [|assumption|assumption]. congruence.
Qed.
Lemma macro_known k : known k -> macro all_defs (cdefName k) (kval k).
Proof. intros Hk. apply macro_iff. eauto. Qed.
Lemma dget_defs k : known k -> dget all_defs (cdefName k) = Some (kval k).
Proof.
  intros Hk. destruct (dget all_defs (cdefName k)) as [v|] eqn:E.
  - apply dget_In in E. apply (macro_known k Hk) in E. congruence.
  - exfalso. apply dget_None in E. apply E. destruct (macro_known k Hk) as [Hi _]. apply (in_map fst) in Hi. exact Hi.
Qed.
Lemma or_value_known ks : Forall known ks -> or_value all_defs (enumOr ks) (orvals ks).
Proof. induction 1 as [|k ks Hk _ IH]; cbn; constructor; auto using macro_known. Qed.
Lemma or_value_fun defs l v w : or_value defs l v -> or_value defs l w -> v = w.
Proof.
  intros H. revert w. induction H as [|s v l x Hm _ IH]; intros w Hw; inversion Hw; subst; [reflexivity|].
  f_equal; [|auto]. destruct Hm as [_ Hu]. match goal with Hm' : macro _ _ _ |- _ => destruct Hm' as [Hi _] end. symmetry; apply Hu, Hi.
Qed.

(** * Sorting *)
Lemma insert_by_perm {A} (le : A -> A -> bool) x l : Permutation (insert_by le x l) (x :: l).
Proof.
  induction l as [|y l IH]; cbn; [reflexivity|]. destruct (le y x); [|reflexivity].
  rewrite IH. apply perm_swap.
Qed.
Lemma sorted_by_perm {A} (le : A -> A -> bool) l : Permutation (sorted_by le l) l.
Proof.
  unfold sorted_by. assert (G : forall acc, Permutation (fold_left (fun acc x => insert_by le x acc) l acc) (acc ++ l)).
  { induction l as [|x l IH]; intros acc; cbn; [now rewrite app_nil_r|]. rewrite IH, insert_by_perm.
    cbn. apply Permutation_middle. }
  apply (G []).
Qed.
Lemma insert_by_sorted {A} (le : A -> A -> bool) (tot : forall a b, le a b = false -> le b a = true)
  (tr : forall a b c, le a b = true -> le b c = true -> le a c = true) x l :
  StronglySorted (fun a b => le a b = true) l -> StronglySorted (fun a b => le a b = true) (insert_by le x l).
Proof.
  induction 1 as [|y l Hs IH Hf]; cbn; [repeat constructor|].
  destruct (le y x) eqn:E.
  - constructor; [exact IH|]. eapply Permutation_Forall; [apply Permutation_sym, insert_by_perm|]. constructor; assumption.
  - apply tot in E. constructor; [constructor; assumption|]. constructor; [exact E|].
    eapply Forall_impl; [|exact Hf]. cbn. intros z Hz. eapply tr; eassumption.
Qed.
Lemma sorted_by_sorted {A} (le : A -> A -> bool) (tot : forall a b, le a b = false -> le b a = true)
  (tr : forall a b c, le a b = true -> le b c = true -> le a c = true) l :
  StronglySorted (fun a b => le a b = true) (sorted_by le l).
Proof.
  unfold sorted_by. assert (G : forall acc, StronglySorted (fun a b => le a b = true) acc ->
    StronglySorted (fun a b => le a b = true) (fold_left (fun acc x => insert_by le x acc) l acc)).
  { induction l as [|x l IH]; intros acc Ha; cbn; [exact Ha|]. apply IH, insert_by_sorted; assumption. }
  apply G. constructor.
Qed.
Lemma tuple_leb_total a b : tuple_leb a b = false -> tuple_leb b a = true.
Proof.
  revert b; induction a as [|x a IH]; intros [|y b]; cbn; try discriminate; auto.
  rewrite (N.eqb_sym y x). destruct (N.eqb_spec x y) as [->|]; [auto|]. lia.
Qed.
Lemma tuple_leb_trans a b c : tuple_leb a b = true -> tuple_leb b c = true -> tuple_leb a c = true.
Proof.
  revert b c; induction a as [|x a IH]; intros [|y b] [|z c]; cbn; try discriminate; auto.
  destruct (N.eqb_spec x y) as [->|].
  - destruct (N.eqb_spec y z); [eauto|auto].
  - destruct (N.eqb_spec y z) as [->|]; [destruct (N.eqb_spec x z); [congruence|auto]|].
    destruct (N.eqb_spec x z); lia.
Qed.

(** * Tables taken from a dictionary by the shape of its keys *)
Section Table.
  Context {V W : Type}.
  Variables (sel : list N * V -> bool) (mk : N -> list N) (pos : nat) (f : V -> W) (m : list (list N * V)).
  Hypothesis (Hm : dict_wf m).
  Hypothesis (Hsel : forall kv, sel kv = true <-> exists c, fst kv = mk c).
  Hypothesis (Hpos : forall c, nth pos (mk c) 0%N = c).
  Hypothesis (Hmk : forall a b, tuple_leb (mk a) (mk b) = N.leb a b).
  Let t := map (fun kv => (nth pos (fst kv) 0%N, f (snd kv))) (sorted_by by_key (filter sel m)).
  Lemma table_In c w : In (c, w) t <-> exists v, dget m (mk c) = Some v /\ w = f v.
  Proof.
    unfold t. rewrite in_map_iff. split.
    - intros ([k v] & E & Hi). cbn in E. inversion E; subst. clear E.
      apply (Permutation_in _ (sorted_by_perm _ _)) in Hi. apply filter_In in Hi as [Hi Hs].
      apply Hsel in Hs as [c Hc]. cbn in Hc. subst k. rewrite Hpos. exists v. split; [apply dget_In_iff; assumption|reflexivity].
    - intros (v & Hv & ->). exists (mk c, v). cbn. split; [now rewrite Hpos|].
      apply (Permutation_in _ (Permutation_sym (sorted_by_perm _ _))). apply filter_In.
      split; [apply dget_In, Hv|]. apply Hsel. exists c. reflexivity.
  Qed.
  Lemma table_ascending : ascending t.
  Proof.
    unfold ascending, t.
    assert (S1 : StronglySorted (fun a b => by_key a b = true) (sorted_by by_key (filter sel m))).
    { apply sorted_by_sorted; unfold by_key; [intros a b; apply tuple_leb_total|intros a b c; apply tuple_leb_trans]. }
    assert (N1 : NoDup (dkeys (sorted_by by_key (filter sel m)))).
    { unfold dkeys. eapply Permutation_NoDup; [apply Permutation_map, Permutation_sym, sorted_by_perm|].
      clear - Hm. unfold dict_wf, dkeys in Hm. induction m as [|kv l IH]; cbn; [constructor|].
      inversion Hm; subst. destruct (sel kv); [cbn; constructor; [|auto]|auto].
      intros Hi. apply in_map_iff in Hi as (x & E & Hx). apply filter_In in Hx as [Hx _]. apply H1. rewrite <- E. apply in_map, Hx. }
    assert (A1 : forall kv, In kv (sorted_by by_key (filter sel m)) -> exists c, fst kv = mk c).
    { intros kv Hi. apply (Permutation_in _ (sorted_by_perm _ _)) in Hi. apply filter_In in Hi as [_ Hs]. apply Hsel, Hs. }
    revert S1 N1 A1. generalize (sorted_by by_key (filter sel m)). intros l S1. induction S1 as [|kv l Hs IH Hf]; intros N1 A1; cbn; [constructor|].
    inversion N1 as [|? ? Hn N2]; subst. constructor; [apply IH; [exact N2|intros x Hx; apply A1; right; exact Hx]|].
    apply Forall_forall. intros x Hx. apply in_map_iff in Hx as (y & <- & Hy). cbn.
    rewrite Forall_forall in Hf. specialize (Hf y Hy).
    destruct (A1 kv (or_introl eq_refl)) as [a Ha]. destruct (A1 y (or_intror Hy)) as [b Hb].
    unfold by_key in Hf. rewrite Ha, Hb, Hmk in Hf. rewrite Ha, Hb, !Hpos.
    assert (a <> b); [|lia]. intros ->. apply Hn. rewrite Ha, <- Hb. apply in_map, Hy.
  Qed.
End Table.
Lemma prefixed_sel {V} e (kv : list N * V) : prefixed e kv = true <-> exists c, fst kv = [e; c].
Proof.
  unfold prefixed. destruct (fst kv) as [|x [|y [|z l]]]; try (split; [discriminate|intros [c E]; discriminate]).
  rewrite N.eqb_eq. split; [intros ->; eauto|intros [c E]; congruence].
Qed.
Lemma single_sel {V} (kv : list N * V) : single_code kv = true <-> exists c, fst kv = [c].
Proof.
  unfold single_code. destruct (fst kv) as [|x [|y l]]; try (split; [discriminate|intros [c E]; discriminate]).
  split; eauto.
Qed.
Lemma vscToVk_In e m c names : dict_wf m ->
  (In (c, names) (vscToVk e m) <-> exists ks, dget m [e; c] = Some ks /\ names = enumOr ks).
Proof.
  intros Hm. unfold vscToVk. apply (table_In (prefixed e) (fun c => [e; c]) 1 enumOr m Hm); auto using prefixed_sel.
Qed.
Lemma vscToVk_ascending e m : dict_wf m -> ascending (vscToVk e m).
Proof.
  intros Hm. unfold vscToVk. apply (table_ascending (prefixed e) (fun c => [e; c]) 1 enumOr m Hm); auto using prefixed_sel.
  intros a b. cbn. rewrite N.eqb_refl. destruct (N.eqb_spec a b); lia.
Qed.
Lemma keyNames_In m c s : dict_wf m ->
  (In (c, Some s) (keyNames m) <-> dget m [c] = Some s).
Proof.
  intros Hm. unfold keyNames. rewrite in_app_iff.
  rewrite (table_In single_code (fun c => [c]) 0 (@Some string) m Hm); auto using single_sel.
  split; [intros [(v & E & E')|[E|[]]]; congruence|]. intros E. left. eauto.
Qed.
Lemma keyNamesExt_In m c s : dict_wf m ->
  (In (c, Some s) (keyNamesExt m) <-> dget m [0xe0%N; c] = Some s).
Proof.
  intros Hm. unfold keyNamesExt. rewrite in_app_iff.
  rewrite (table_In (prefixed 0xe0) (fun c => [0xe0%N; c]) 1 (@Some string) m Hm); auto using prefixed_sel.
  split; [intros [(v & E & E')|[E|[]]]; congruence|]. intros E. left. eauto.
Qed.
(** Searching a table. *)
Lemma scan_found {V} (t : list (N * V)) c v : ascending t -> Forall (fun r => fst r <> 0%N) t -> In (c, v) t ->
  forall rest, scan (t ++ rest) c = Found v.
Proof.
  intros Ha. induction Ha as [|[k w] t Hs IH Hf]; intros Hz Hi rest; [destruct Hi|]. cbn [app scan].
  inversion Hz as [|? ? Hk Hz']; subst. cbn in Hk. destruct (N.eqb_spec k 0); [contradiction|].
  destruct (N.eqb_spec k c) as [->|Hn].
  - destruct Hi as [E|Hi]; [congruence|]. exfalso. rewrite Forall_forall in Hf. specialize (Hf _ Hi). cbn in Hf. lia.
  - destruct Hi as [E|Hi]; [congruence|]. apply IH; assumption.
Qed.
Lemma scan_missing {V} (t : list (N * V)) c : Forall (fun r => fst r <> 0%N) t -> (forall v, ~ In (c, v) t) ->
  forall rest, scan (t ++ rest) c = scan rest c.
Proof.
  induction 1 as [|[k w] t Hk _ IH]; intros Hn rest; [reflexivity|]. cbn [app scan]. cbn in Hk.
  destruct (N.eqb_spec k 0); [contradiction|]. destruct (N.eqb_spec k c) as [->|].
  - exfalso. apply (Hn w). left; reflexivity.
  - apply IH. intros v Hv. apply (Hn v). right; exact Hv.
Qed.

(** * Character tables *)
Lemma groupby_spec {A} (f : A -> nat) l :
  concat (map snd (groupby f l)) = l /\
  Forall (fun ng => snd ng <> [] /\ Forall (fun x => f x = fst ng) (snd ng)) (groupby f l) /\
  (forall n g r, groupby f l = (n, g) :: r -> exists x l', l = x :: l' /\ f x = n).
Proof.
  induction l as [|x l (IH1 & IH2 & IH3)]; cbn [groupby]; [split; [reflexivity|split; [constructor|intros; discriminate]]|].
  destruct (groupby f l) as [|[n g] r] eqn:E.
  - cbn in IH1. subst l. split; [reflexivity|]. split; [repeat constructor; discriminate|].
    intros n g r E'. inversion E'; subst. eauto.
  - cbn in IH1. inversion IH2 as [|? ? [H1 H2] H3]; subst. cbn in H1, H2.
    destruct (Nat.eqb_spec (f x) n) as [<-|Hn].
    + split; [cbn; congruence|]. split.
      * constructor; [cbn; split; [discriminate|constructor; auto]|exact H3].
      * intros n' g' r' E'. inversion E'; subst. eauto.
    + split; [cbn; congruence|]. split.
      * constructor; [cbn; split; [discriminate|repeat constructor]|]. constructor; [cbn; auto|exact H3].
      * intros n' g' r' E'. inversion E'; subst. eauto.
Qed.
Lemma groupby_sorted {A} (f : A -> nat) l : StronglySorted (fun a b => f a <= f b) l ->
  StronglySorted lt (map fst (groupby f l)).
Proof.
  induction 1 as [|x l Hs IH Hf]; cbn [groupby]; [constructor|].
  pose proof (groupby_spec f l) as (E1 & E2 & E3).
  destruct (groupby f l) as [|[n g] r] eqn:E; [repeat constructor|].
  destruct (E3 n g r eq_refl) as (y & l' & -> & Hy).
  destruct (Nat.eqb_spec (f x) n) as [<-|Hn]; [cbn in *; exact IH|].
  cbn [map fst] in *. constructor; [exact IH|].
  assert (L : f x < n). { inversion Hf; subst. assert (f x <= f y) by assumption. lia. }
  inversion IH as [|? ? _ Hr]; subst. constructor; [exact L|]. eapply Forall_impl; [|exact Hr]. cbn. lia.
Qed.
Lemma Forall2_imp {A B} (P Q : A -> B -> Prop) l r : (forall a b, P a b -> Q a b) -> Forall2 P l r -> Forall2 Q l r.
Proof. intros H. induction 1; constructor; auto. Qed.
Definition zero_row (n : nat) : wrow := mkW (CNum 0) 0 (repeat (CNum 0) n).
Definition rvk (r : charrow) : N := fst (fst r).
(** [w] is the table row for [r]. *)
Definition row_of (r : charrow) (w : wrow) : Prop :=
  exists chars, mapM toRepr (snd r) = Ok chars /\ w = mkW (CName (cdefName (KVk (rvk r)))) (snd (fst r)) chars.
Lemma generate_ok n g rows : generate n g = Ok rows <-> exists body, rows = body ++ [zero_row n] /\ Forall2 row_of g body.
Proof.
  unfold generate, zero_row.
  match goal with |- context [mapM ?F g] => assert (G : forall body, mapM F g = Ok body <-> Forall2 row_of g body) end.
  { intros body. split.
    - intros E. apply mapM_Ok_inv in E. eapply Forall2_imp; [|exact E]. intros [[v fl] cs] w Hw. cbn in Hw.
      destruct (mapM toRepr cs) as [chars|] eqn:Ec; cbn in Hw; [|discriminate]. inversion Hw. exists chars. auto.
    - intros H. apply mapM_Ok. eapply Forall2_imp; [|exact H]. intros [[v fl] cs] w (chars & Ec & ->). cbn in Ec. rewrite Ec. reflexivity. }
  match goal with |- context [mapM ?F g] => destruct (mapM F g) as [body|e] end; cbn [bind].
  - split.
    + intros E; inversion E; subst. exists body. split; [reflexivity|]. apply G. reflexivity.
    + intros (body' & -> & H). apply G in H. congruence.
  - split; [discriminate|]. intros (body' & -> & H). apply G in H. discriminate.
Qed.
Definition gtable := (tblname * list charrow)%type.
Definition table_of (g : gtable) (t : tblname * list wrow) : Prop :=
  fst t = fst g /\ exists body, snd t = body ++ [zero_row (snd (fst g))] /\ Forall2 row_of (snd g) body.
Definition char_groups (m : list charrow) : list gtable :=
  map (fun ng => (("", fst ng), snd ng)) (groupby ncols (sorted_by (fun a b => Nat.leb (ncols a) (ncols b)) m)) ++ [(("Num", 1), numpad)].
Lemma vkToWchar_ok m wch tabs : vkToWchar m = Ok (wch, tabs) ->
  Forall2 table_of (char_groups m) wch /\ tabs = map Some (map fst wch) ++ [None].
Proof.
  unfold vkToWchar, char_groups. cbv zeta.
  destruct (mapM _ (groupby ncols _)) as [ts|] eqn:Et; cbn [bind]; [|discriminate].
  destruct (generate 1 numpad) as [np|] eqn:En; cbn [bind]; [|discriminate].
  intros E. apply (f_equal (fun r => match r with Ok x => x | Raise _ => ([], []) end)) in E. apply pair_equal_spec in E as [<- <-].
  split; [|now rewrite map_map].
  apply Forall2_app.
  - apply mapM_Ok_inv in Et. clear En. induction Et as [|ng t gs ts Ht _ IH]; cbn [map]; constructor; [|exact IH].
    destruct (generate (fst ng) (snd ng)) as [rows|] eqn:Eg; cbn [bind] in Ht; [|discriminate]. inversion Ht; subst.
    split; [reflexivity|]. apply generate_ok in Eg. exact Eg.
  - constructor; [|constructor]. split; [reflexivity|]. apply generate_ok in En. exact En.
Qed.
Lemma char_groups_nodup m : NoDup (map fst (char_groups m)).
Proof.
  unfold char_groups. rewrite map_app, map_map. cbn [map fst].
  assert (S1 : StronglySorted (fun a b => ncols a <= ncols b) (sorted_by (fun a b => Nat.leb (ncols a) (ncols b)) m)).
  { assert (S0 : StronglySorted (fun a b => Nat.leb (ncols a) (ncols b) = true) (sorted_by (fun a b => Nat.leb (ncols a) (ncols b)) m)).
    { apply sorted_by_sorted; intros; rewrite ?Nat.leb_gt, ?Nat.leb_le in *; lia. }
    clear - S0. induction S0; constructor; [assumption|]. eapply Forall_impl; [|eassumption]. cbn. intros b Hb. apply Nat.leb_le, Hb. }
  apply groupby_sorted in S1. revert S1. generalize (groupby ncols (sorted_by (fun a b => Nat.leb (ncols a) (ncols b)) m)). intros gs S1.
  apply Permutation_NoDup with (l := ("Num", 1) :: map (fun x : nat * list charrow => ("", fst x)) gs); [apply Permutation_cons_append|].
  constructor.
  - intros Hi. apply in_map_iff in Hi as (x & E & _). discriminate.
  - induction gs as [|g gs IH]; cbn; [constructor|]. inversion S1 as [|? ? S2 Hf]; subst. constructor; [|apply IH, S2].
    intros Hi. apply in_map_iff in Hi as (x & E & Hx). inversion E as [E']. rewrite Forall_forall in Hf.
    specialize (Hf (fst x) (in_map fst _ _ Hx)). lia.
Qed.
Lemma char_groups_concat m : concat (map snd (char_groups m)) = sorted_by (fun a b => Nat.leb (ncols a) (ncols b)) m ++ numpad.
Proof.
  unfold char_groups. rewrite map_app, concat_app, map_map. cbn [map snd concat]. rewrite app_nil_r. f_equal.
  apply groupby_spec.
Qed.
Lemma char_groups_cols m : Forall (fun g : gtable => Forall (fun r => ncols r = snd (fst g)) (snd g)) (char_groups m).
Proof.
  unfold char_groups. apply Forall_app. split.
  - apply Forall_map. cbn. destruct (groupby_spec ncols (sorted_by (fun a b => Nat.leb (ncols a) (ncols b)) m)) as (_ & H & _).
    eapply Forall_impl; [|exact H]. cbn. tauto.
  - constructor; [|constructor]. cbn [fst snd]. apply Forall_forall. intros r Hr. unfold numpad in Hr. apply in_map_iff in Hr as (i & <- & _). reflexivity.
Qed.
Lemma vk_nonzero v : known (KVk v) -> v <> 0%N.
Proof.
  cbn [known]. intros Hv ->. assert (E : forallb (fun x => negb (N.eqb x 0)) (dvals vkval) = true) by (vm_compute; reflexivity).
  rewrite forallb_forall in E. specialize (E _ Hv). discriminate.
Qed.
Definition is_row (v : N) (r : charrow) : bool := N.eqb (rvk r) v.
Definition found_row (o : outcome wrow) (v : N) (g : list charrow) : Prop :=
  match find (is_row v) g with Some r => exists w, o = Found w /\ row_of r w | None => o = NotFound end.
Lemma scan_rows_spec n v g body : Forall (fun r => known (KVk (rvk r))) g -> Forall2 row_of g body ->
  found_row (scan_rows all_defs (body ++ [zero_row n]) v) v g.
Proof.
  intros Hk H. unfold found_row. induction H as [|r w g body Hr _ IH]; cbn [app scan_rows find].
  - reflexivity.
  - inversion Hk as [|? ? Hk1 Hk2]; subst. destruct Hr as (chars & Ec & ->). cbn [w_vk ceval].
    rewrite dget_defs by exact Hk1. cbn [kval]. destruct (N.eqb_spec (rvk r) 0) as [E|_]; [apply vk_nonzero in Hk1; contradiction|].
    unfold is_row at 1. destruct (N.eqb (rvk r) v); [|apply IH, Hk2]. eexists; split; [reflexivity|]. exists chars. auto.
Qed.
Lemma scan_tables_spec d v gs ts : d_defs d = all_defs ->
  Forall2 table_of gs ts -> Forall (fun g : gtable => Forall (fun r => known (KVk (rvk r))) (snd g)) gs ->
  (forall t, In t ts -> dget (d_wch d) (fst t) = Some (snd t)) ->
  found_row (scan_tables d (map Some (map fst ts) ++ [None]) v) v (concat (map snd gs)).
Proof.
  intros Hd H. induction H as [|g t gs ts [Hn (body & Hb & Hr)] _ IH]; intros Hk Ht; cbn [map app scan_tables concat]; [reflexivity|].
  rewrite (Ht t (or_introl eq_refl)), Hd, Hb. inversion Hk as [|? ? Hk1 Hk2]; subst.
  pose proof (scan_rows_spec (snd (fst g)) v _ _ Hk1 Hr) as S. unfold found_row in *.
  assert (F : find (is_row v) (snd g ++ concat (map snd gs)) = match find (is_row v) (snd g) with Some r => Some r | None => find (is_row v) (concat (map snd gs)) end).
  { generalize (snd g). induction l as [|x l IHl]; cbn; [reflexivity|]. destruct (is_row v x); [reflexivity|exact IHl]. }
  rewrite F. destruct (find (is_row v) (snd g)) as [r|].
  - destruct S as (w & E & Hw). rewrite E. eauto.
  - rewrite S. apply IH; [exact Hk2|]. intros t' Ht'. apply Ht. right; exact Ht'.
Qed.
Lemma numpad_known : Forall (fun r => known (KVk (rvk r))) numpad.
Proof.
  apply Forall_forall. intros r Hr. cbn [known]. apply mem_In.
  assert (E : forallb (fun r => mem (rvk r) (dvals vkval)) numpad = true) by (vm_compute; reflexivity).
  rewrite forallb_forall in E. apply E, Hr.
Qed.
Lemma table_names gs ts : Forall2 table_of gs ts -> map fst ts = map fst gs.
Proof. induction 1 as [|g t gs ts [E _] _ IH]; cbn; congruence. Qed.
(** The row Windows finds: the first one for the virtual key, in order of the
    number of columns, the number pad last. *)
Lemma driver_scan d m wch tabs v : vkToWchar m = Ok (wch, tabs) -> d_defs d = all_defs -> d_wch d = wch -> d_tables d = tabs ->
  Forall (fun r => known (KVk (rvk r))) m ->
  found_row (scan_tables d (d_tables d) v) v (sorted_by (fun a b => Nat.leb (ncols a) (ncols b)) m ++ numpad).
Proof.
  intros E Hd Hw Ht Hk. destruct (vkToWchar_ok _ _ _ E) as [H1 H2]. rewrite Ht, H2, <- char_groups_concat.
  apply scan_tables_spec; [exact Hd|exact H1| |].
  - assert (F : Forall (fun r => known (KVk (rvk r))) (concat (map snd (char_groups m)))).
    { rewrite char_groups_concat. apply Forall_app. split; [|exact numpad_known].
      eapply Permutation_Forall; [apply Permutation_sym, sorted_by_perm|exact Hk]. }
    apply Forall_forall. intros g Hg. apply Forall_forall. intros r Hr. rewrite Forall_forall in F. apply F.
    apply in_concat. exists (snd g). split; [apply in_map, Hg|exact Hr].
  - intros [n rows] Hi. cbn. apply dget_In_iff; [|rewrite Hw; exact Hi]. unfold dict_wf, dkeys. rewrite Hw, (table_names _ _ H1). apply char_groups_nodup.
Qed.
Lemma find_unique v (l : list charrow) r : NoDup (map rvk l) -> In r l -> rvk r = v -> find (is_row v) l = Some r.
Proof.
  induction l as [|x l IH]; cbn [map find]; intros Hn Hi Hv; [destruct Hi|]. inversion Hn as [|? ? Hni Hn']; subst.
  unfold is_row at 1. destruct (N.eqb_spec (rvk x) (rvk r)) as [E|Hne].
  - destruct Hi as [->|Hi]; [reflexivity|]. exfalso. apply Hni. rewrite E. apply in_map, Hi.
  - destruct Hi as [->|Hi]; [contradiction|]. apply IH; auto.
Qed.
(** Rendering a character fails exactly for texts that are not one character. *)
Definition fine (s : option cell) : Prop := s = None \/ exists c, s = Some (CText [c]).
Lemma toRepr_fine s : (exists e, toRepr s = Ok e) <-> fine s.
Proof.
  unfold fine. destruct s as [[[|c [|c' t]]|]|]; cbn; split; eauto; try (intros [e E]; discriminate);
    try (intros [E|[c0 E]]; discriminate).
Qed.
Lemma column_spec d r w i : d_defs d = all_defs -> row_of r w ->
  column d w i = match nth_error (snd r) i with
                 | Some (Some (CText [c])) => if N.eqb (c mod 65536) 0xF000 then None else Some (c mod 65536)%N
                 | _ => None
                 end.
Proof.
  intros Hd (chars & Ec & ->). unfold column. cbn [w_chars]. apply mapM_Ok_inv in Ec.
  revert i. induction Ec as [|s e cs chars Hs _ IH]; intros [|i]; cbn [nth_error]; auto.
  rewrite Hd. destruct s as [[[|c [|c' t]]|]|]; cbn [toRepr] in Hs; try discriminate.
  - assert (e = CNum c) as -> by congruence. reflexivity.
  - assert (e = CName (cdefName (KWc 0xF000))) as -> by congruence. unfold ceval. rewrite dget_defs; [reflexivity|]. vm_compute. auto.
Qed.
(** * The driver of the renderer *)
Lemma sc_wf : dict_wf scancodeToVk.
Proof. apply nodupb_NoDup. vm_compute. reflexivity. Qed.
Lemma names_wf : dict_wf qwertyScancodeToName.
Proof. apply nodupb_NoDup. vm_compute. reflexivity. Qed.
Definition knownb (k : key) : bool :=
  match k with KVk v => mem v (dvals vkval) | KFl v => mem v (dvals vkflags) | KWc v => mem v (dvals wchars) end.
Lemma knownb_known k : knownb k = true -> known k.
Proof. destruct k; cbn [knownb known]; apply mem_In. Qed.
(** Every name in the table of scancodes is a member of its enumeration. *)
Lemma qwerty_known : forallb (fun kv => forallb (fun s => match s with VK n => dhas vkval n | VF n => dhas vkflags n end) (snd kv)) qwertyScancodeToVk = true.
Proof. vm_compute. reflexivity. Qed.
(** What the table of the renderer looks like: codes fit the arrays, and the
    first virtual key is the low byte of the entry. *)
Definition sc_okb (kv : list N * list key) : bool :=
  (match fst kv with [c] => N.ltb c 128 | [e; c] => (N.eqb e 0xe0 || N.eqb e 0xe1) && negb (N.eqb c 0) | _ => false end) &&
  forallb knownb (snd kv) &&
  match first_vk (snd kv) with Ok v => N.eqb v (N.land (orvals (snd kv)) 0xFF) | Raise _ => false end.
Lemma sc_ok : forallb sc_okb scancodeToVk = true.
Proof. vm_compute. reflexivity. Qed.
Lemma sc_get sc ks : dget scancodeToVk sc = Some ks ->
  Forall known ks /\ first_vk ks = Ok (N.land (orvals ks) 0xFF) /\
  ((exists c, sc = [c] /\ (c < 128)%N) \/ exists e c, sc = [e; c] /\ (e = 0xe0%N \/ e = 0xe1%N) /\ c <> 0%N).
Proof.
  intros E. apply dget_In in E. pose proof sc_ok as H. rewrite forallb_forall in H. apply H in E. clear H.
  unfold sc_okb in E. cbn [fst snd] in E. apply andb_true_iff in E as [E E3]. apply andb_true_iff in E as [E1 E2].
  split; [|split].
  - apply Forall_forall. intros k Hk. rewrite forallb_forall in E2. apply knownb_known, E2, Hk.
  - destruct (first_vk ks) as [v|]; [|discriminate]. apply N.eqb_eq in E3. congruence.
  - destruct sc as [|e [|c [|? ?]]]; try discriminate.
    + left. exists e. split; [reflexivity|]. lia.
    + right. exists e, c. split; [reflexivity|]. apply andb_true_iff in E1 as [E1 E4].
      split; [|intros ->; discriminate]. apply orb_true_iff in E1 as [E1|E1]; apply N.eqb_eq in E1; auto.
Qed.
Lemma vsc_nonzero e m : dict_wf m -> (forall c, dget m [e; c] <> None -> c <> 0%N) -> Forall (fun r => fst r <> 0%N) (vscToVk e m).
Proof.
  intros Hm H. apply Forall_forall. intros [c names] Hi. cbn. apply (vscToVk_In e m c names Hm) in Hi as (ks & E & _).
  apply H. congruence.
Qed.
Lemma vsc_scan e m c ks : dict_wf m -> (forall c, dget m [e; c] <> None -> c <> 0%N) -> dget m [e; c] = Some ks ->
  scan (vscToVk e m) c = Found (enumOr ks).
Proof.
  intros Hm H E. rewrite <- (app_nil_r (vscToVk e m)). apply scan_found.
  - apply vscToVk_ascending, Hm.
  - apply vsc_nonzero; assumption.
  - apply vscToVk_In; eauto.
Qed.
Lemma nth_error_seq' s n i : i < n -> nth_error (seq s n) i = Some (s + i).
Proof. revert s i; induction n as [|n IH]; intros s [|i] H; cbn; try lia; [f_equal; lia|]. rewrite IH by lia. f_equal; lia. Qed.
Lemma ausVK_nth m c : (c < 128)%N ->
  nth_error (ausVK m) (N.to_nat c) = Some (enumOr (match dget m [c] with Some v => v | None => [KVk (vk "NULL")] end)).
Proof.
  intros Hc. unfold ausVK. rewrite nth_error_map, nth_error_seq' by lia. cbn [option_map]. now rewrite Nat.add_0_l, N2Nat.id.
Qed.
(** The search for a character goes through the same rows. *)
Lemma find_row_spec d n p (q : charrow -> bool) g body : d_defs d = all_defs ->
  Forall (fun r => known (KVk (rvk r))) g -> Forall2 row_of g body -> (forall r w, row_of r w -> p w = q r) ->
  match find q g with
  | Some r => exists w, find_row d p (body ++ [zero_row n]) = Found w /\ row_of r w
  | None => find_row d p (body ++ [zero_row n]) = NotFound
  end.
Proof.
  intros Hd Hk H Hq. induction H as [|r w g body Hr _ IH]; cbn [app find_row find].
  - reflexivity.
  - inversion Hk as [|? ? Hk1 Hk2]; subst. rewrite <- (Hq r w Hr). pose proof Hr as (chars & Ec & ->). cbn [w_vk ceval].
    rewrite Hd, dget_defs by exact Hk1. cbn [kval]. destruct (N.eqb_spec (rvk r) 0) as [E|_]; [apply vk_nonzero in Hk1; contradiction|].
    destruct (p _); [|apply IH, Hk2]. eexists; split; [reflexivity|exact Hr].
Qed.
Lemma find_tables_spec d p q gs ts : d_defs d = all_defs -> (forall r w, row_of r w -> p w = q r) ->
  Forall2 table_of gs ts -> Forall (fun g : gtable => Forall (fun r => known (KVk (rvk r))) (snd g)) gs ->
  (forall t, In t ts -> dget (d_wch d) (fst t) = Some (snd t)) ->
  match find q (concat (map snd gs)) with
  | Some r => exists w, find_tables d p (map Some (map fst ts) ++ [None]) = Found w /\ row_of r w
  | None => find_tables d p (map Some (map fst ts) ++ [None]) = NotFound
  end.
Proof.
  intros Hd Hq H. induction H as [|g t gs ts [Hn (body & Hb & Hr)] _ IH]; intros Hk Ht; cbn [map app find_tables concat]; [reflexivity|].
  rewrite (Ht t (or_introl eq_refl)), Hb. inversion Hk as [|? ? Hk1 Hk2]; subst.
  pose proof (find_row_spec d (snd (fst g)) p q _ _ Hd Hk1 Hr Hq) as S.
  assert (F : find q (snd g ++ concat (map snd gs)) = match find q (snd g) with Some r => Some r | None => find q (concat (map snd gs)) end).
  { generalize (snd g). induction l as [|x l IHl]; cbn; [reflexivity|]. destruct (q x); [reflexivity|exact IHl]. }
  rewrite F. destruct (find q (snd g)) as [r|].
  - destruct S as (w & E & Hw). rewrite E. eauto.
  - rewrite S. apply IH; [exact Hk2|]. intros t' Ht'. apply Ht. right; exact Ht'.
Qed.
Lemma driver_find d m wch tabs p q : vkToWchar m = Ok (wch, tabs) -> d_defs d = all_defs -> d_wch d = wch -> d_tables d = tabs ->
  Forall (fun r => known (KVk (rvk r))) m -> (forall r w, row_of r w -> p w = q r) ->
  match find q (sorted_by (fun a b => Nat.leb (ncols a) (ncols b)) m ++ numpad) with
  | Some r => exists w, find_tables d p (d_tables d) = Found w /\ row_of r w
  | None => find_tables d p (d_tables d) = NotFound
  end.
Proof.
  intros E Hd Hw Ht Hk Hq. destruct (vkToWchar_ok _ _ _ E) as [H1 H2]. rewrite Ht, H2, <- char_groups_concat.
  apply find_tables_spec; [exact Hd|exact Hq|exact H1| |].
  - assert (F : Forall (fun r => known (KVk (rvk r))) (concat (map snd (char_groups m)))).
    { rewrite char_groups_concat. apply Forall_app. split; [|exact numpad_known].
      eapply Permutation_Forall; [apply Permutation_sym, sorted_by_perm|exact Hk]. }
    apply Forall_forall. intros g Hg. apply Forall_forall. intros r Hr. rewrite Forall_forall in F. apply F.
    apply in_concat. exists (snd g). split; [apply in_map, Hg|exact Hr].
  - intros [n rows] Hi. cbn. apply dget_In_iff; [|rewrite Hw; exact Hi]. unfold dict_wf, dkeys. rewrite Hw, (table_names _ _ H1). apply char_groups_nodup.
Qed.
Lemma column_wide d r w i : d_defs d = all_defs -> row_of r w -> column d w i = wide (nth i (snd r) None).
Proof.
  intros Hd Hr. rewrite (column_spec d r w i Hd Hr). unfold wide.
  destruct (nth_error (snd r) i) as [s|] eqn:E.
  - rewrite (nth_error_nth _ _ _ E). reflexivity.
  - apply nth_error_None in E. rewrite nth_overflow by exact E. reflexivity.
Qed.
Lemma row_chars_length r w : row_of r w -> List.length (w_chars w) = ncols r.
Proof. intros (chars & Ec & ->). cbn. apply mapM_Ok_inv in Ec. symmetry. apply (Forall2_length _ _ _ Ec). Qed.
Lemma has_char_row d c r w : d_defs d = all_defs -> row_of r w -> has_char d c w = existsb (fun s => eqb (wide s) (Some c)) (snd r).
Proof.
  intros Hd Hr. unfold has_char. rewrite (row_chars_length _ _ Hr). unfold ncols.
  assert (G : forall l k, (forall i, column d w (k + i) = wide (nth i l None)) ->
    existsb (fun i => eqb (column d w i) (Some c)) (seq k (List.length l)) = existsb (fun s => eqb (wide s) (Some c)) l).
  { induction l as [|s l IH]; intros k H; [reflexivity|]. cbn [List.length seq existsb]. rewrite <- (Nat.add_0_r k) at 1. rewrite (H 0). cbn [nth].
    f_equal. apply IH. intros i. change (nth i l None) with (nth (S i) (s :: l) None). rewrite <- (H (S i)). f_equal. lia. }
  apply (G (snd r) 0). intros i. apply column_wide; assumption.
Qed.
