(** Proofs about PlotModel.v. *)
From Coq Require Import QArith Lqa.
From Verif Require Import Base LayoutModel LayoutSpec LayoutProofs WriterModel StatsModel StatsSpec CarpalxModel CarpalxSpec CarpalxQ OptModel RenderModel.
From Verif Require Import PlotModel PlotSpec.
Close Scope Q_scope.
Open Scope string_scope.
Open Scope list_scope.
Unset Implicit Arguments.

(** * Sorting *)
Section Sort.
  Context {A : Type} (le : A -> A -> bool).
  Hypothesis total : forall x y, le x y = true \/ le y x = true.
  Hypothesis trans : forall x y z, le x y = true -> le y z = true -> le x z = true.
  Lemma insert_by_perm x l : Permutation (insert_by le x l) (x :: l).
  Proof.
    induction l as [|y l IH]; cbn; [reflexivity|]. destruct (le x y); [reflexivity|].
    rewrite IH. apply perm_swap.
  Qed.
  Lemma sorted_by_perm l : Permutation (sorted_by le l) l.
  Proof. induction l as [|x l IH]; cbn; [reflexivity|]. rewrite insert_by_perm. apply perm_skip, IH. Qed.
  Lemma insert_by_sorted x l : StronglySorted (fun a b => le a b = true) l ->
    StronglySorted (fun a b => le a b = true) (insert_by le x l).
  Proof.
    induction l as [|y l IH]; intros S; cbn; [repeat constructor|].
    inversion S as [|? ? S' Fy]; subst. destruct (le x y) eqn:E.
    - constructor; [exact S|]. constructor; [exact E|]. eapply Forall_impl; [|exact Fy]. intros z Hz. eapply trans; eauto.
    - constructor; [auto|]. apply Forall_forall. intros z Hz. apply (Permutation_in _ (insert_by_perm x l)) in Hz as [<-|Hz].
      + destruct (total x y); congruence.
      + rewrite Forall_forall in Fy. auto.
  Qed.
  Lemma insert_by_stable p x l : (forall y, p x = true -> p y = true -> le x y = true) ->
    filter p (insert_by le x l) = filter p (x :: l).
  Proof.
    intros Hp. induction l as [|y l IH]; cbn [insert_by]; [reflexivity|]. destruct (le x y) eqn:E; [reflexivity|].
    cbn [filter] in *. rewrite IH. destruct (p x) eqn:Px, (p y) eqn:Py; try reflexivity.
    rewrite (Hp y) in E by auto. discriminate.
  Qed.
  Lemma sorted_by_ok l : sorting le l (sorted_by le l).
  Proof.
    split; [apply sorted_by_perm|]. split.
    - induction l as [|x l IH]; cbn; [constructor|]. apply insert_by_sorted, IH.
    - intros x. induction l as [|y l IH]; [reflexivity|].
      change (sorted_by le (y :: l)) with (insert_by le y (sorted_by le l)). rewrite insert_by_stable.
      + cbn [filter]. rewrite IH. reflexivity.
      + intros z Hy Hz. apply andb_true_iff in Hy as [Y1 Y2], Hz as [Z1 Z2]. eapply trans; eauto.
  Qed.
  (** There is only one. *)
  Lemma sorting_unique l a b : sorting le l a -> sorting le l b -> a = b.
  Proof.
    intros (Pa & Sa & Fa) (Pb & Sb & Fb).
    assert (P : Permutation a b) by (rewrite Pa, Pb; reflexivity).
    assert (F : forall x, filter (fun y => le x y && le y x) a = filter (fun y => le x y && le y x) b)
      by (intros x; rewrite Fa, Fb; reflexivity).
    clear l Pa Pb Fa Fb. revert b P Sb F. induction a as [|x a IH]; intros b P Sb F.
    - apply Permutation_nil in P. now subst.
    - destruct b as [|y b]; [apply Permutation_sym, Permutation_nil in P; discriminate|].
      inversion Sa as [|? ? Sa' Xa]; subst. inversion Sb as [|? ? Sb' Yb]; subst.
      assert (Rx : le x x = true) by (destruct (total x x); auto).
      assert (Ry : le y y = true) by (destruct (total y y); auto).
      assert (Hxy : le x y = true).
      { assert (I : In y (x :: a)) by (apply (Permutation_in _ (Permutation_sym P)); left; reflexivity).
        destruct I as [<-|I]; [exact Rx|]. rewrite Forall_forall in Xa. auto. }
      assert (Hyx : le y x = true).
      { assert (I : In x (y :: b)) by (apply (Permutation_in _ P); left; reflexivity).
        destruct I as [<-|I]; [exact Ry|]. rewrite Forall_forall in Yb. auto. }
      assert (x = y) as <-.
      { specialize (F x). cbn [filter] in F. rewrite Rx, Hxy, Hyx in F. cbn in F. congruence. }
      f_equal. apply IH; auto.
      + eapply Permutation_cons_inv, P.
      + intros z. specialize (F z). cbn [filter] in F. destruct (le z x && le x z); congruence.
  Qed.
End Sort.

Lemma leb_by_total {A} (f : A -> Z) x y : (f x <=? f y)%Z = true \/ (f y <=? f x)%Z = true.
Proof. lia. Qed.
Lemma leb_by_trans {A} (f : A -> Z) x y z : (f x <=? f y)%Z = true -> (f y <=? f z)%Z = true -> (f x <=? f z)%Z = true.
Proof. lia. Qed.
Lemma Qle_bool_total x y : Qle_bool x y = true \/ Qle_bool y x = true.
Proof. rewrite !Qle_bool_iff. destruct (Qlt_le_dec x y); [left; lra|right; lra]. Qed.
Lemma Qle_bool_trans x y z : Qle_bool x y = true -> Qle_bool y z = true -> Qle_bool x z = true.
Proof. rewrite !Qle_bool_iff. lra. Qed.
Lemma by_key_total key r x y : by_key key r x y = true \/ by_key key r y x = true.
Proof. unfold by_key. destruct r; apply Qle_bool_total. Qed.
Lemma by_key_trans key r x y z : by_key key r x y = true -> by_key key r y z = true -> by_key key r x z = true.
Proof. unfold by_key. destruct r; intros; eapply Qle_bool_trans; eauto. Qed.

(** * Sums *)
Lemma sumZ_app {A} (f : A -> Z) l r : sumZ f (l ++ r) = (sumZ f l + sumZ f r)%Z.
Proof. unfold sumZ. induction l as [|x l IH]; cbn [app fold_right] in *; lia. Qed.
Lemma sumZ_cons {A} (f : A -> Z) x l : sumZ f (x :: l) = (f x + sumZ f l)%Z.
Proof. reflexivity. Qed.
Lemma sumZ_perm {A} (f : A -> Z) l r : Permutation l r -> sumZ f l = sumZ f r.
Proof. induction 1; rewrite ?sumZ_cons; try lia. Qed.
Lemma sumZ_map {A B} (f : B -> Z) (g : A -> B) l : sumZ f (map g l) = sumZ (fun x => f (g x)) l.
Proof. induction l as [|x l IH]; cbn [map]; rewrite ?sumZ_cons; [reflexivity|lia]. Qed.
Lemma sumZ_ext_in {A} (f g : A -> Z) l : (forall x, In x l -> f x = g x) -> sumZ f l = sumZ g l.
Proof. induction l as [|x l IH]; intros E; [reflexivity|]. rewrite !sumZ_cons, (E x (or_introl eq_refl)), IH; [reflexivity|]. intros y I. apply E. right. exact I. Qed.
Lemma sumZ_nonneg {A} (f : A -> Z) l : (forall x, In x l -> 0 <= f x)%Z -> (0 <= sumZ f l)%Z.
Proof. induction l as [|x l IH]; intros E; [cbn; lia|]. rewrite sumZ_cons. specialize (E x (or_introl eq_refl)) as E0. specialize (IH (fun y I => E y (or_intror I))). lia. Qed.
Lemma sumZ_le {A} (f g : A -> Z) l : (forall x, In x l -> f x <= g x)%Z -> (sumZ f l <= sumZ g l)%Z.
Proof. induction l as [|x l IH]; intros E; [cbn; lia|]. rewrite !sumZ_cons. specialize (E x (or_introl eq_refl)) as E0. specialize (IH (fun y I => E y (or_intror I))). lia. Qed.
Lemma sumZ_plus {A} (f g : A -> Z) l : sumZ (fun x => f x + g x)%Z l = (sumZ f l + sumZ g l)%Z.
Proof. induction l as [|x l IH]; [reflexivity|]. rewrite !sumZ_cons, IH. lia. Qed.
Lemma sumZ_zero {A} (l : list A) : sumZ (fun _ => 0%Z) l = 0%Z.
Proof. induction l as [|x l IH]; [reflexivity|]. rewrite sumZ_cons, IH. reflexivity. Qed.
Lemma zsum_sumZ l : zsum l = sumZ (fun x => x) l.
Proof.
  unfold zsum. assert (H : forall a, fold_left Z.add l a = (a + sumZ (fun x => x) l)%Z); [|rewrite H; lia].
  induction l as [|x l IH]; intros a; cbn [fold_left]; [cbn; lia|]. rewrite IH, sumZ_cons. lia.
Qed.
Lemma zsum_dvals {K} (d : list (K * Z)) : zsum (dvals d) = sumZ snd d.
Proof. rewrite zsum_sumZ. unfold dvals. rewrite sumZ_map. reflexivity. Qed.
Lemma sumZ_swap {A B} (f : A -> B -> Z) l r : sumZ (fun x => sumZ (f x) r) l = sumZ (fun y => sumZ (fun x => f x y) l) r.
Proof.
  induction l as [|x l IH]; [cbn; now rewrite sumZ_zero|]. rewrite sumZ_cons, IH, <- sumZ_plus. reflexivity.
Qed.
Lemma amount_nonneg {K} (P : K -> bool) d : all_counts (fun v => 0 <= v)%Z d -> (0 <= amount P d)%Z.
Proof.
  intros F. apply sumZ_nonneg. unfold all_counts in F. rewrite Forall_forall in F. intros kv I. specialize (F _ I). destruct (P (fst kv)); lia.
Qed.
Lemma amount_all {K} (d : list (K * Z)) : amount (fun _ => true) d = sumZ snd d.
Proof. reflexivity. Qed.
Lemma amount_ext {K} (P Q : K -> bool) d : (forall k, In k (dkeys d) -> P k = Q k) -> amount P d = amount Q d.
Proof. intros E. apply sumZ_ext_in. intros kv I. rewrite E; [reflexivity|]. apply in_map, I. Qed.
Lemma amount_le {K} (P Q : K -> bool) d : all_counts (fun v => 0 <= v)%Z d -> (forall k, P k = true -> Q k = true) -> (amount P d <= amount Q d)%Z.
Proof.
  intros F E. apply sumZ_le. unfold all_counts in F. rewrite Forall_forall in F. intros kv I. specialize (F _ I).
  destruct (P (fst kv)) eqn:EP; [rewrite (E _ EP); lia|]. destruct (Q (fst kv)); lia.
Qed.
(** Sum over a dictionary *)
Lemma sum_dset {K V} `{EqDec K} (f : K * V -> Z) d k v :
  sumZ f (dset d k v) = (sumZ f d - match dget d k with Some x => f (k, x) | None => 0 end + f (k, v))%Z.
Proof.
  induction d as [|[a b] d IH]; cbn [dset dget]; [rewrite sumZ_cons; cbn; lia|].
  destruct (eqb_spec k a) as [->|N]; rewrite !sumZ_cons; [lia|]. rewrite IH. lia.
Qed.

Lemma truediv_Ok a b q : truediv a b = Ok q <-> b <> 0%Z /\ q = (inject_Z a / inject_Z b)%Q.
Proof.
  unfold truediv. destruct (Z.eqb_spec b 0) as [->|N]; split.
  - discriminate.
  - intros [N _]. now destruct N.
  - intros E. inversion E. auto.
  - intros [_ ->]. reflexivity.
Qed.
Lemma truediv_ok a b : b <> 0%Z -> truediv a b = Ok (inject_Z a / inject_Z b)%Q.
Proof. intros N. apply truediv_Ok. auto. Qed.
Lemma bind_inv {A B} (m : res A) (f : A -> res B) b : bind m f = Ok b -> exists a, m = Ok a /\ f a = Ok b.
Proof. destruct m; [eauto|discriminate]. Qed.
Lemma injQ_pos z : (0 < z)%Z -> (0 < inject_Z z)%Q.
Proof. intros H. change 0%Q with (inject_Z 0). rewrite <- Zlt_Qlt. exact H. Qed.
Lemma injQ_nz z : z <> 0%Z -> ~ (inject_Z z == 0)%Q.
Proof. intros H E. apply H. change 0%Q with (inject_Z 0) in E. apply (proj1 (inject_Z_injective _ _)), E. Qed.
Lemma frac_bounds a b : (0 <= a <= b)%Z -> (0 < b)%Z -> (0 <= inject_Z a / inject_Z b <= 1)%Q.
Proof.
  intros [H1 H2] H3. pose proof (injQ_pos _ H3) as P. split.
  - apply Qle_shift_div_l; [exact P|]. rewrite Qmult_0_l. change 0%Q with (inject_Z 0). rewrite <- Zle_Qle. lia.
  - apply Qle_shift_div_r; [exact P|]. rewrite Qmult_1_l. rewrite <- Zle_Qle. lia.
Qed.

(** * letterfreq *)
Lemma types_spec L t c : types L t c = true <-> getText L c = Ok (CText t).
Proof.
  unfold types. destruct (getText L c) as [[t'|]|]; try (split; discriminate).
  destruct (list_eq_dec N.eq_dec t t') as [->|N]; split; congruence.
Qed.
Definition isLo (category : N -> string) (c : N) : bool := mem (category c) ["Lo"].
Definition lo_text (category : N -> string) (t : text) : bool := match t with c :: _ => isLo category c | [] => false end.
Section Letter.
  Variables (category : N -> string) (L : layout).
  Let binv (b : list (text * Z)) (cs : list (comb * Z)) : Prop :=
    dict_wf b /\
    (forall t, In t (dkeys b) <-> lo_text category t = true /\ exists c, In c (dkeys cs) /\ types L t c = true) /\
    (forall t, In t (dkeys b) -> dget0 b t = amount (types L t) cs) /\
    sumZ snd b = amount (types_letter (isLo category) L) cs.
  Lemma amount_snoc {K} (P : K -> bool) d kv : amount P (d ++ [kv]) = (amount P d + if P (fst kv) then snd kv else 0)%Z.
  Proof. unfold amount. rewrite sumZ_app, sumZ_cons. cbn. lia. Qed.
  Lemma amount_none {K} (P : K -> bool) d : (forall k, In k (dkeys d) -> P k = false) -> amount P d = 0%Z.
  Proof. intros N. rewrite (amount_ext _ (fun _ => false)) by exact N. apply sumZ_zero. Qed.
  Lemma letter_bin_ok b cs kv b' : binv b cs -> letter_bin category L b kv = Ok b' ->
    binv b' (cs ++ [kv]) /\ exists x r, getText L (fst kv) = Ok (CText (x :: r)).
  Proof.
    intros (W & Kb & Vb & Tb) E. unfold letter_bin in E. apply bind_inv in E as (tx & Et & E).
    destruct tx as [[|x r]|]; try discriminate. split; [|eauto]. fold (isLo category x) in E.
    assert (Ty : forall t, types L t (fst kv) = true <-> t = x :: r).
    { intros t. rewrite types_spec, Et. split; [congruence|intros ->; reflexivity]. }
    assert (Tl : types_letter (isLo category) L (fst kv) = isLo category x) by (unfold types_letter; rewrite Et; reflexivity).
    assert (Dk : dkeys (cs ++ [kv]) = dkeys cs ++ [fst kv]) by (unfold dkeys; apply map_app).
    destruct (isLo category x) eqn:Lo; inversion E; subst b'; clear E.
    - unfold cadd. split; [apply dset_wf, W|]. split; [|split].
      + intros t. split; [intros I; split|].
        * apply In_dkeys_dset in I as [->|I]; [exact Lo|]. apply Kb in I. tauto.
        * rewrite Dk. apply In_dkeys_dset in I as [->|I].
          -- exists (fst kv). split; [apply in_or_app; cbn; auto|]. now apply Ty.
          -- apply Kb in I as (_ & c & Ic & Tc). exists c. split; [apply in_or_app; auto|exact Tc].
        * intros (Lt & c & Ic & Tc). apply In_dkeys_dset. rewrite Dk in Ic. apply in_app_or in Ic as [Ic|[<-|[]]].
          -- right. apply Kb. eauto.
          -- left. now apply Ty.
      + intros t I. rewrite amount_snoc. unfold dget0. rewrite dget_dset. destruct (eqb_spec t (x :: r)) as [->|N].
        * rewrite (proj2 (Ty _) eq_refl). f_equal. destruct (in_dec (fun a b => eq_dec a b) (x :: r) (dkeys b)) as [Ib|Nb].
          -- apply Vb, Ib.
          -- rewrite (proj2 (dget_None _ _) Nb). symmetry. apply amount_none. intros c Ic.
             destruct (types L (x :: r) c) eqn:F; [|reflexivity]. destruct Nb. apply Kb. split; [exact Lo|eauto].
        * apply In_dkeys_dset in I as [->|I]; [now destruct N|]. destruct (types L t (fst kv)) eqn:F; [apply Ty in F; contradiction|].
          rewrite Z.add_0_r. apply Vb, I.
      + rewrite sum_dset, Tb, amount_snoc, Tl. unfold dget0. destruct (dget b (x :: r)); cbn [snd]; lia.
    - split; [exact W|]. split; [|split].
      + intros t. split; [intros I; split|].
        * apply Kb in I. tauto.
        * rewrite Dk. apply Kb in I as (_ & c & Ic & Tc). exists c. split; [apply in_or_app; auto|exact Tc].
        * intros (Lt & c & Ic & Tc). rewrite Dk in Ic. apply in_app_or in Ic as [Ic|[<-|[]]].
          -- apply Kb. eauto.
          -- apply Ty in Tc as ->. cbn [lo_text] in Lt. congruence.
      + intros t I. rewrite amount_snoc. destruct (types L t (fst kv)) eqn:F; [|rewrite Z.add_0_r; apply Vb, I].
        apply Ty in F as ->. apply Kb in I as [Lt _]. cbn [lo_text] in Lt. congruence.
      + rewrite amount_snoc, Tl, Tb. lia.
  Qed.
  Lemma letter_bins_ok cs' : forall b cs b', binv b cs -> foldM (letter_bin category L) cs' b = Ok b' ->
    binv b' (cs ++ cs') /\ forall c, In c (dkeys cs') -> exists x r, getText L c = Ok (CText (x :: r)).
  Proof.
    induction cs' as [|kv cs' IH]; intros b cs b' Hb E; cbn [foldM] in E.
    - inversion E; subst. rewrite app_nil_r. split; [exact Hb|intros c []].
    - apply bind_inv in E as (b1 & E1 & E). destruct (letter_bin_ok _ _ _ _ Hb E1) as [H1 G1].
      destruct (IH _ _ _ H1 E) as [H2 G2]. rewrite <- app_assoc in H2. split; [exact H2|].
      intros c [<-|I]; auto.
  Qed.
  Lemma binv_nil : binv [] [].
  Proof.
    split; [constructor|]. split; [|split; [intros t []|reflexivity]].
    intros t. split; [intros []|]. intros (_ & c & [] & _).
  Qed.
  Lemma letter_rows_ok T l : forall i cum rows, letter_rows T i cum l = Ok rows ->
    (l <> [] -> T <> 0%Z) /\ map (fun r => (lletter r, labs r)) rows = l /\
    forall j r, nth_error rows j = Some r -> lx r = i + j /\ (lrel r == inject_Z (labs r) / inject_Z T)%Q /\
      lcum r = (cum - sumZ snd (firstn j l))%Z /\ (lcumRel r == inject_Z (lcum r) / inject_Z T)%Q.
  Proof.
    induction l as [|[k v] l IH]; intros i cum rows E; cbn [letter_rows] in E.
    - inversion E; subst. split; [tauto|]. split; [reflexivity|]. intros [|j] r Hj; discriminate.
    - apply bind_inv in E as (rel & E1 & E). apply bind_inv in E as (cr & E2 & E). apply bind_inv in E as (rs & E3 & E).
      inversion E; subst rows; clear E. apply truediv_Ok in E1 as [N ->]. apply truediv_Ok in E2 as [_ ->].
      destruct (IH _ _ _ E3) as (_ & M & R). split; [intros _; exact N|]. split; [cbn; congruence|].
      intros [|j] r Hj; cbn [nth_error] in Hj.
      + inversion Hj; subst r; cbn. repeat split; try lia; reflexivity.
      + destruct (R _ _ Hj) as (A & B & C & D). split; [lia|]. split; [exact B|]. split; [|exact D].
        rewrite C. cbn [firstn]. rewrite sumZ_cons. cbn [snd]. lia.
  Qed.
  Lemma letter_rows_total T l : forall i cum, T <> 0%Z -> exists rows, letter_rows T i cum l = Ok rows /\ length rows = length l.
  Proof.
    induction l as [|[k v] l IH]; intros i cum N; cbn [letter_rows]; [eexists; split; reflexivity|].
    rewrite !truediv_ok by exact N. cbn [bind]. destruct (IH (S i) (cum - v)%Z N) as (rs & -> & Hl). cbn. eexists. split; [reflexivity|]. cbn. congruence.
  Qed.
  Lemma letter_bin_total b kv x r : getText L (fst kv) = Ok (CText (x :: r)) -> exists b', letter_bin category L b kv = Ok b'.
  Proof. intros E. unfold letter_bin. rewrite E. cbn. eauto. Qed.
  Lemma letter_bins_total cs : forall b, (forall c, In c (dkeys cs) -> exists x r, getText L c = Ok (CText (x :: r))) ->
    exists b', foldM (letter_bin category L) cs b = Ok b'.
  Proof.
    induction cs as [|kv cs IH]; intros b Hc; cbn [foldM]; [eauto|].
    destruct (Hc (fst kv) (or_introl eq_refl)) as (x & r & E). destruct (letter_bin_total b _ _ _ E) as [b1 ->]. cbn.
    apply IH. intros c I. apply Hc. right. exact I.
  Qed.
  Lemma letter_bins_spec cs b : foldM (letter_bin category L) cs [] = Ok b -> binv b cs /\
    forall c, In c (dkeys cs) -> exists x r, getText L c = Ok (CText (x :: r)).
  Proof. intros E. apply (letter_bins_ok _ _ [] _ binv_nil E). Qed.
End Letter.

(** * Triads by text *)
Section Triads.
  Variables (L : layout) (m : model Qnum).
  Lemma types_triad_spec k t : types_triad L k t = true <-> mapM (getText L) t = Ok k.
  Proof.
    revert t; induction k as [|x k IH]; intros [|c t]; cbn [types_triad mapM].
    - split; reflexivity.
    - split; [discriminate|]. intros E. apply bind_inv in E as (y & _ & E). apply bind_inv in E as (ys & _ & E). discriminate.
    - destruct x; split; discriminate.
    - destruct x as [x|].
      + rewrite andb_true_iff, types_spec, IH. split.
        * intros [-> ->]. reflexivity.
        * intros E. apply bind_inv in E as (y & E1 & E). apply bind_inv in E as (ys & E2 & E). inversion E; subst. auto.
      + destruct (getText L c) as [[y|]|e]; cbn [bind].
        * split; [discriminate|]. intros E. apply bind_inv in E as (ys & _ & E). discriminate.
        * rewrite IH. split; [intros ->; reflexivity|]. intros E. apply bind_inv in E as (ys & E2 & E). inversion E; subst. exact E2.
        * split; discriminate.
  Qed.
  Definition tinv (st : list (list cell * tbin) * Z) (ts : list (triad * Z)) : Prop :=
    snd st = sumZ snd ts /\ dict_wf (fst st) /\
    (forall k, In k (dkeys (fst st)) <-> exists t, In t (dkeys ts) /\ types_triad L k t = true) /\
    (forall k d, dget (fst st) k = Some d -> bweight d = amount (types_triad L k) ts /\ books (beffort d) (m, ledger_of L k ts)) /\
    (forall t, In t (dkeys ts) -> (exists k, mapM (getText L) t = Ok k) /\ exists e, triadCompute m t = Ok e).
  Lemma ledger_snoc k ts tw : ledger_of L k (ts ++ [tw]) =
    ledger_of L k ts ++ (if types_triad L k (fst tw) then [(fst tw, inject_Z (snd tw))] else []).
  Proof.
    unfold ledger_of. rewrite filter_app, map_app. f_equal. cbn [filter]. destruct (types_triad L k (fst tw)); reflexivity.
  Qed.
  Lemma ledger_none k ts : (forall t, In t (dkeys ts) -> types_triad L k t = false) -> ledger_of L k ts = [].
  Proof.
    intros N. unfold ledger_of. induction ts as [|tv ts IH]; [reflexivity|]. cbn [filter]. rewrite N by (left; reflexivity).
    apply IH. intros t I. apply N. right. exact I.
  Qed.
  Lemma triad_bin_ok st ts tw st' : tinv st ts -> triad_bin L m st tw = Ok st' -> tinv st' (ts ++ [tw]).
  Proof.
    destruct st as [b W], tw as [t w]. intros (HW & Wf & Kb & Vb & Sc) E. cbn [fst snd] in *. unfold triad_bin in E.
    apply bind_inv in E as (k & Ek & E). apply bind_inv in E as (d & Ed & E).
    assert (Tk : forall k', types_triad L k' t = true <-> k' = k).
    { intros k'. rewrite types_triad_spec, Ek. split; congruence. }
    assert (Bd : bweight d = amount (types_triad L k) ts /\ books (beffort d) (m, ledger_of L k ts)).
    { destruct (dget b k) as [d'|] eqn:G.
      - inversion Ed; subst. apply Vb, G.
      - apply bind_inv in Ed as (u & _ & Ed). inversion Ed; subst d; cbn [bweight beffort].
        assert (N : forall t', In t' (dkeys ts) -> types_triad L k t' = false).
        { intros t' I. destruct (types_triad L k t') eqn:F; [|reflexivity]. apply dget_None in G. destruct G. apply Kb. eauto. }
        rewrite amount_none by exact N. rewrite (ledger_none _ _ N). split; [reflexivity|].
        repeat split; cbn; reflexivity. }
    destruct Bd as [Bw Bb].
    pose proof (racc_add (beffort d) (m, ledger_of L k ts) t (inject_Z w) Bb) as B'. cbn [fst snd] in B'.
    destruct (racc (nm:=Qnum) nadd t (inject_Z w) (beffort d)) as [o r] eqn:R.
    destruct r as [u|e]; [|discriminate]. apply bind_inv in E as (ly & _ & E). inversion E; subst st'; clear E.
    assert (Hs : exists e, triadCompute m t = Ok e).
    { unfold racc in R. destruct Bb as (Bm & _). cbn [fst] in Bm. rewrite Bm in R. destruct (triadCompute m t); [eauto|discriminate]. }
    assert (Dk : dkeys (ts ++ [(t, w)]) = dkeys ts ++ [t]) by (unfold dkeys; apply map_app).
    unfold enter, scoreQ in B'. destruct Hs as [e He]. rewrite He in B'. cbn [fst] in B'.
    split; [|split; [|split; [|split]]]; cbn [fst snd].
    - rewrite sumZ_app, HW. cbn. lia.
    - apply dset_wf, Wf.
    - intros k'. rewrite In_dkeys_dset, Dk. split.
      + intros [->|I].
        * exists t. split; [apply in_or_app; cbn; auto|]. now apply Tk.
        * apply Kb in I as (t' & It & Tt). exists t'. split; [apply in_or_app; auto|exact Tt].
      + intros (t' & It & Tt). apply in_app_or in It as [It|[<-|[]]]; [right; apply Kb; eauto|left; now apply Tk].
    - intros k' d' G. rewrite dget_dset in G. rewrite amount_snoc, ledger_snoc. cbn [fst snd]. destruct (eqb_spec k' k) as [->|N].
      + inversion G; subst d'; cbn [bweight beffort]. rewrite (proj2 (Tk k) eq_refl). split; [lia|exact B'].
      + destruct (types_triad L k' t) eqn:F; [apply Tk in F; contradiction|]. rewrite Z.add_0_r, app_nil_r. apply Vb, G.
    - intros t'. rewrite Dk. intros I. apply in_app_or in I as [I|[<-|[]]]; [auto|eauto].
  Qed.
  Lemma triad_bins_from ts' : forall st ts st', tinv st ts -> foldM (triad_bin L m) ts' st = Ok st' -> tinv st' (ts ++ ts').
  Proof.
    induction ts' as [|tw ts' IH]; intros st ts st' Hi E; cbn [foldM] in E.
    - inversion E; subst. now rewrite app_nil_r.
    - apply bind_inv in E as (s1 & E1 & E). replace (ts ++ tw :: ts') with ((ts ++ [tw]) ++ ts') by (rewrite <- app_assoc; reflexivity).
      eapply IH; [|exact E]. eapply triad_bin_ok; eauto.
  Qed.
  Lemma triad_bins_ok ts st : triad_bins L m ts = Ok st -> tinv st ts.
  Proof.
    intros E. apply (triad_bins_from ts _ [] _) in E; [exact E|].
    split; [reflexivity|]. split; [constructor|]. split; [|split].
    - intros k. split; [intros []|]. intros (t & [] & _).
    - discriminate.
    - intros t [].
  Qed.
  (** It does not fail on scorable triads. *)
  Lemma getText_layer c x : getText L c = Ok x -> exists il, modifierToLayer L (cmod c) = Ok il.
  Proof. unfold getText. intros E. apply bind_inv in E as (il & E & _). eauto. Qed.
  Lemma layers_defined t k : mapM (getText L) t = Ok k -> exists l, mapM (fun c => do il <- modifierToLayer L (cmod c); Ok (fst il)) t = Ok l.
  Proof.
    revert k; induction t as [|c t IH]; intros k E; cbn [mapM] in *; [eauto|].
    apply bind_inv in E as (x & E1 & E). apply bind_inv in E as (ys & E2 & _).
    destruct (getText_layer _ _ E1) as [il ->]. destruct (IH _ E2) as [l ->]. cbn. eauto.
  Qed.
  Lemma triad_bin_total st ts t w k e : tinv st ts -> initCheck m = Ok tt -> mapM (getText L) t = Ok k -> triadCompute m t = Ok e ->
    exists st', triad_bin L m st (t, w) = Ok st'.
  Proof.
    destruct st as [b W]. intros Hi Hc Ek He. unfold triad_bin. rewrite Ek. cbn [bind].
    destruct (layers_defined _ _ Ek) as [l El].
    assert (D : exists d, match dget b k with Some d => Ok d | None => do _ <- initCheck m; Ok (mkBin 0 (mkR m 0%Q 0%Q) []) end = Ok d /\ rmodel (beffort d) = m).
    { destruct (dget b k) as [d|] eqn:G.
      - exists d. split; [reflexivity|]. destruct Hi as (_ & _ & _ & Vb & _). apply Vb in G as (_ & Bm & _). exact Bm.
      - rewrite Hc. cbn. eauto. }
    destruct D as (d & -> & Hm). cbn [bind]. unfold racc. rewrite Hm, He. rewrite El. cbn. eauto.
  Qed.
  Lemma triad_bins_total ts' : initCheck m = Ok tt ->
    (forall t, In t (dkeys ts') -> (exists k, mapM (getText L) t = Ok k) /\ exists e, triadCompute m t = Ok e) ->
    forall st ts, tinv st ts -> exists st', foldM (triad_bin L m) ts' st = Ok st'.
  Proof.
    intros Hc. induction ts' as [|[t w] ts' IH]; intros Ht st ts Hi; cbn [foldM]; [eauto|].
    destruct (Ht t (or_introl eq_refl)) as [[k Ek] [e He]].
    destruct (triad_bin_total st ts t w k e Hi Hc Ek He) as [s1 E1]. rewrite E1. cbn [bind].
    eapply IH; [|eapply triad_bin_ok; eauto]. intros t' I. apply Ht. right. exact I.
  Qed.
End Triads.

(** * The most frequent triads *)
Definition wsum (l : list (list cell * tbin)) : Z := sumZ (fun d => bweight (snd d)) l.
Lemma qlt_true a b : qlt a b = true <-> (a < b)%Q.
Proof. unfold qlt. rewrite negb_true_iff. destruct (Qle_bool b a) eqn:E; [apply Qle_bool_iff in E; split; [discriminate|lra]|]. split; [|reflexivity]. intros _. apply Qnot_le_lt. intros H. apply Qle_bool_iff in H. congruence. Qed.
Lemma qlt_false a b : qlt a b = false <-> (b <= a)%Q.
Proof. unfold qlt. rewrite negb_false_iff. apply Qle_bool_iff. Qed.
Lemma top_stop B l : forall acc w, (B <= inject_Z w)%Q -> fold_left (top_step B) l (acc, w) = (acc, w).
Proof.
  induction l as [|d l IH]; intros acc w Hb; [reflexivity|]. cbn [fold_left]. unfold top_step at 2. cbn [snd].
  rewrite (proj2 (qlt_false _ _) Hb). apply IH, Hb.
Qed.
Lemma top_fold B l : Forall (fun d => 0 <= bweight (snd d))%Z l -> forall acc w, exists n,
  n <= length l /\ fold_left (top_step B) l (acc, w) = (acc ++ firstn n l, (w + wsum (firstn n l))%Z) /\
  (forall k, k < n -> (inject_Z (w + wsum (firstn k l)) < B)%Q) /\ (n = length l \/ (B <= inject_Z (w + wsum (firstn n l)))%Q).
Proof.
  induction l as [|d l IH]; intros F acc w.
  - exists 0. cbn. rewrite app_nil_r, Z.add_0_r. split; [lia|]. split; [reflexivity|]. split; [lia|]. left; reflexivity.
  - inversion F as [|? ? Hd F']; subst. cbn [fold_left]. unfold top_step at 2. cbn [fst snd].
    destruct (qlt (inject_Z w) B) eqn:Q.
    + destruct (IH F' (acc ++ [d]) (w + bweight (snd d))%Z) as (n & Ln & E & Lt & St). exists (S n). split; [cbn; lia|].
      split; [|split].
      * rewrite E. cbn [firstn]. rewrite <- app_assoc. cbn [app]. f_equal. unfold wsum. rewrite sumZ_cons. lia.
      * intros [|k] Lk; cbn [firstn]; [cbn; rewrite Z.add_0_r; now apply qlt_true|]. unfold wsum. rewrite sumZ_cons. rewrite Z.add_assoc. apply Lt. lia.
      * destruct St as [->|St]; [left; reflexivity|right]. cbn [firstn]. unfold wsum. rewrite sumZ_cons, Z.add_assoc. exact St.
    + exists 0. split; [lia|]. rewrite qlt_false in Q. rewrite top_stop by exact Q. cbn. rewrite app_nil_r, Z.add_0_r.
      split; [reflexivity|]. split; [lia|]. right; exact Q.
Qed.
