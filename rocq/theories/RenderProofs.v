(** Proofs for C51-C54. *)
From Coq Require Import QArith Lqa.
From Verif Require Import Base LayoutModel WriterModel RenderModel.
Close Scope Q_scope.
Open Scope string_scope.
Open Scope list_scope.
Set Implicit Arguments.
Unset Strict Implicit.

(** * Vocabulary *)
Definition qsum (l : list Q) : Q := fold_right Qplus 0%Q l.
(** Key [b] is the [j]th of the [i]th row. *)
Definition key_at (rows : list (list string * list string)) (i j : nat) (b : string) : Prop :=
  exists l r, nth_error rows i = Some (l, r) /\ nth_error (l ++ r) j = Some b.
Section Grid.
  Variables (s : settings) (width : string -> Q).
  (** Width of a key with its margin *)
  Definition cellw (b : string) : Q := (buttonWidth s width b + buttonMargin s)%Q.
  Definition x_of (lr : list string * list string) (j : nat) : Q :=
    (qsum (map cellw (firstn j (fst lr ++ snd lr))) + (if Nat.ltb j (List.length (fst lr)) then 0 else middleGap s))%Q.
  Definition y_of (i : nat) : Q := (inject_Z (Z.of_nat i) * (sWidth s + buttonMargin s))%Q.
  Definition row_width (lr : list string * list string) : Q := (qsum (map cellw (fst lr ++ snd lr)) + middleGap s)%Q.
End Grid.
Definition keys (rows : list (list string * list string)) : list string := flat_map (fun r => fst r ++ snd r) rows.

(** * Positions *)
Section Calc.
  Variables (s : settings) (width : string -> Q).
  Fixpoint posl (l : list string) (x y : Q) : list (string * (Q * Q)) :=
    match l with [] => [] | b :: l' => (b, (x, y)) :: posl l' (x + cellw s width b)%Q y end.
  Fixpoint xend (l : list string) (x : Q) : Q := match l with [] => x | b :: l' => xend l' (x + cellw s width b)%Q end.
  Lemma dset_new {V} (m : list (string * V)) b v : dhas m b = false -> dset m b v = m ++ [(b, v)].
  Proof.
    induction m as [|[k w] m IH]; [reflexivity|]. unfold dhas in *. cbn [dget dset app]. destruct (eqb b k); [discriminate|].
    intros H. rewrite IH by exact H. reflexivity.
  Qed.
  Lemma place_ok l : forall m x y, NoDup (dkeys m ++ l) ->
    place s width l m x y = Ok (m ++ posl l x y, xend l x).
  Proof.
    induction l as [|b l IH]; intros m x y N; cbn [place posl xend]; [rewrite app_nil_r; reflexivity|].
    assert (Hb : dhas m b = false).
    { destruct (dhas m b) eqn:E; [|reflexivity]. apply dhas_key in E. apply NoDup_remove_2 in N. exfalso. apply N, in_or_app. auto. }
    rewrite Hb, (dset_new _ Hb). rewrite IH.
    - unfold cellw. rewrite <- app_assoc. reflexivity.
    - unfold dkeys in *. rewrite map_app. cbn [map fst]. rewrite <- app_assoc. exact N.
  Qed.
  Lemma place_dup l : forall m x y, NoDup (dkeys m) -> ~ NoDup (dkeys m ++ l) -> place s width l m x y = Raise AssertionError.
  Proof.
    induction l as [|b l IH]; intros m x y Nm N; cbn [place]; [rewrite app_nil_r in N; contradiction|].
    destruct (dhas m b) eqn:E; [reflexivity|]. rewrite (dset_new _ E). apply IH.
    - unfold dkeys in *. rewrite map_app. cbn [map fst].
      assert (K : ~ In b (dkeys m)) by (intros K; apply dhas_key in K; congruence). apply NoDup_rev in Nm. rewrite <- (rev_involutive (map fst m ++ [b])).
      apply NoDup_rev. rewrite rev_app_distr. cbn. constructor; [rewrite <- in_rev; exact K|exact Nm].
    - unfold dkeys in *. rewrite map_app. cbn [map fst]. rewrite <- app_assoc. exact N.
  Qed.
  Lemma posl_keys l : forall x y, dkeys (posl l x y) = l.
  Proof. induction l as [|b l IH]; intros x y; [reflexivity|]. unfold dkeys in *. cbn. f_equal. apply IH. Qed.
  Definition rowl (lr : list string * list string) (y : Q) : list (string * (Q * Q)) :=
    posl (fst lr) 0 y ++ posl (snd lr) (xend (fst lr) 0 + middleGap s)%Q y.
  Fixpoint rowsl (rows : list (list string * list string)) (y : Q) : list (string * (Q * Q)) :=
    match rows with [] => [] | lr :: rows' => rowl lr y ++ rowsl rows' (y + (sWidth s + buttonMargin s))%Q end.
  Definition xrow (lr : list string * list string) : Q := xend (snd lr) (xend (fst lr) 0 + middleGap s)%Q.
  Definition maxw (rows : list (list string * list string)) (w : Q) : Q := fold_left (fun a lr => pymax (xrow lr) a) rows w.
  Fixpoint yend (rows : list (list string * list string)) (y : Q) : Q :=
    match rows with [] => y | _ :: rows' => yend rows' (y + (sWidth s + buttonMargin s))%Q end.
  Lemma dkeys_app {V} (a b : list (string * V)) : dkeys (a ++ b) = dkeys a ++ dkeys b.
  Proof. apply map_app. Qed.
  Lemma NoDup_left {A} (a b : list A) : NoDup (a ++ b) -> NoDup a.
  Proof. induction a as [|x a IH]; intros H; [constructor|]. inversion H; subst. constructor; [intros K; apply H2, in_or_app; auto|auto]. Qed.
  Lemma calc_ok rows : forall m w y, NoDup (dkeys m ++ keys rows) ->
    calc_rows s width rows m w y = Ok (m ++ rowsl rows y, (maxw rows w, yend rows y)).
  Proof.
    induction rows as [|[l r] rows IH]; intros m w y N; cbn [calc_rows rowsl maxw fold_left yend keys flat_map fst snd] in *;
      [rewrite app_nil_r; reflexivity|].
    rewrite <- app_assoc in N. assert (N1 : NoDup (dkeys m ++ l)) by (rewrite app_assoc in N; exact (NoDup_left N)).
    assert (N2 : NoDup ((dkeys m ++ l) ++ r)) by (rewrite 2!app_assoc in N; exact (NoDup_left N)).
    rewrite (place_ok _ _ N1). cbn [bind fst snd].
    rewrite place_ok by (rewrite dkeys_app, posl_keys; exact N2). cbn [bind fst snd].
    rewrite IH by (rewrite !dkeys_app, !posl_keys, <- !app_assoc; exact N). unfold rowl. cbn [fst snd]. rewrite <- !app_assoc. reflexivity.
  Qed.
  Lemma calc_dup rows : forall m w y, NoDup (dkeys m) -> ~ NoDup (dkeys m ++ keys rows) ->
    calc_rows s width rows m w y = Raise AssertionError.
  Proof.
    assert (D : forall a b : list string, {NoDup (a ++ b)} + {~ NoDup (a ++ b)}).
    { intros a b. destruct (nodupb (a ++ b)) eqn:E; [left; apply nodupb_NoDup; exact E|right; intros K; apply nodupb_NoDup in K; congruence]. }
    induction rows as [|[l r] rows IH]; intros m w y Nm N; cbn [calc_rows keys flat_map fst snd] in *; [rewrite app_nil_r in N; contradiction|].
    rewrite <- app_assoc in N. destruct (D (dkeys m) l) as [N1|N1]; [|rewrite (place_dup _ _ Nm N1); reflexivity].
    rewrite (place_ok _ _ N1). cbn [bind fst snd].
    assert (K1 : NoDup (dkeys (m ++ posl l 0 y))) by (rewrite dkeys_app, posl_keys; exact N1).
    destruct (D (dkeys (m ++ posl l 0 y)) r) as [N2|N2]; [|rewrite (place_dup _ _ K1 N2); reflexivity].
    rewrite (place_ok _ _ N2). cbn [bind fst snd]. apply IH.
    - rewrite dkeys_app, posl_keys. exact N2.
    - rewrite !dkeys_app, !posl_keys, <- !app_assoc. exact N.
  Qed.
  (** The formula *)
  Lemma qsum_app a b : (qsum (a ++ b) == qsum a + qsum b)%Q.
  Proof. unfold qsum. induction a as [|x a IH]; cbn [app fold_right]; [lra|]. rewrite IH. lra. Qed.
  Lemma xend_sum l : forall x, (xend l x == x + qsum (map (cellw s width) l))%Q.
  Proof. unfold qsum. induction l as [|b l IH]; intros x; cbn [xend map fold_right]; [lra|]. rewrite IH. lra. Qed.
  Lemma posl_nth l : forall x y j b, nth_error l j = Some b ->
    exists x', nth_error (posl l x y) j = Some (b, (x', y)) /\ (x' == x + qsum (map (cellw s width) (firstn j l)))%Q.
  Proof.
    induction l as [|c l IH]; intros x y [|j] b H; try discriminate.
    - injection H as ->. exists x. split; [reflexivity|]. cbn [firstn map qsum fold_right]. lra.
    - cbn [nth_error posl] in *. destruct (IH (x + cellw s width c)%Q y j b H) as (x' & E & Q'). exists x'. split; [exact E|].
      rewrite Q'. cbn [firstn map qsum fold_right]. unfold qsum. lra.
  Qed.
  Lemma posl_len l : forall x y, List.length (posl l x y) = List.length l.
  Proof. induction l; intros; cbn; auto. Qed.
  Lemma rowl_nth lr y j b : nth_error (fst lr ++ snd lr) j = Some b ->
    exists x', nth_error (rowl lr y) j = Some (b, (x', y)) /\ (x' == x_of s width lr j)%Q.
  Proof.
    destruct lr as [l r]. unfold rowl, x_of. cbn [fst snd]. intros H. destruct (Nat.ltb_spec j (List.length l)) as [L|L].
    - rewrite nth_error_app1 in H by exact L. destruct (posl_nth 0 y H) as (x' & E & Q'). exists x'.
      rewrite nth_error_app1 by (rewrite posl_len; exact L). split; [exact E|].
      rewrite firstn_app. replace (j - List.length l) with 0 by lia. rewrite firstn_O, app_nil_r. rewrite Q'. lra.
    - rewrite nth_error_app2 in H by exact L. destruct (posl_nth (xend l 0 + middleGap s)%Q y H) as (x' & E & Q'). exists x'.
      rewrite nth_error_app2 by (rewrite posl_len; exact L). rewrite posl_len. split; [exact E|].
      rewrite firstn_app, (firstn_all2 l) by exact L. rewrite map_app, qsum_app, Q', xend_sum. lra.
  Qed.
  Lemma rowsl_In rows : forall y i j b, key_at rows i j b ->
    exists x' y' lr, In (b, (x', y')) (rowsl rows y) /\ nth_error rows i = Some lr /\ (x' == x_of s width lr j)%Q /\ (y' == y + y_of s i)%Q.
  Proof.
    induction rows as [|lr rows IH]; intros y [|i] j b (l & r & E & H); try discriminate; cbn [nth_error] in E.
    - injection E as ->. destruct (@rowl_nth (l, r) y j b H) as (x' & N & Q'). exists x', y, (l, r). cbn [rowsl]. split.
      + apply in_or_app. left. eapply nth_error_In, N.
      + split; [reflexivity|]. split; [exact Q'|]. unfold y_of. change (inject_Z (Z.of_nat 0)) with 0%Q. lra.
    - destruct (IH (y + (sWidth s + buttonMargin s))%Q i j b) as (x' & y' & lr' & I & N & Qx & Qy); [exists l, r; auto|].
      exists x', y', lr'. cbn [rowsl]. split; [apply in_or_app; right; exact I|]. split; [exact N|]. split; [exact Qx|]. rewrite Qy.
      unfold y_of. rewrite Nat2Z.inj_succ. unfold Z.succ. rewrite inject_Z_plus. change (inject_Z 1) with 1%Q. lra.
  Qed.
  Lemma rowsl_keys rows : forall y, dkeys (rowsl rows y) = keys rows.
  Proof.
    induction rows as [|[l r] rows IH]; intros y; [reflexivity|]. cbn [rowsl keys flat_map fst snd]. unfold rowl. cbn [fst snd].
    rewrite !dkeys_app, !posl_keys, IH. reflexivity.
  Qed.
  Lemma yend_sum rows : forall y, (yend rows y == y + y_of s (List.length rows))%Q.
  Proof.
    induction rows as [|lr rows IH]; intros y; cbn [yend List.length]; [unfold y_of; change (inject_Z (Z.of_nat 0)) with 0%Q; lra|]. rewrite IH. unfold y_of.
    rewrite Nat2Z.inj_succ. unfold Z.succ. rewrite inject_Z_plus. change (inject_Z 1) with 1%Q. lra.
  Qed.
  Lemma xrow_width lr : (xrow lr == row_width s width lr)%Q.
  Proof. unfold xrow, row_width. rewrite !xend_sum, map_app, qsum_app. lra. Qed.
  Lemma pymax_l a b : (a <= pymax a b)%Q.
  Proof. unfold pymax. destruct (Qle_bool b a) eqn:E; cbn [negb]; [lra|]. assert (~ (b <= a)%Q) by (intros K; apply Qle_bool_iff in K; congruence). lra. Qed.
  Lemma pymax_r a b : (b <= pymax a b)%Q.
  Proof. unfold pymax. destruct (Qle_bool b a) eqn:E; cbn [negb]; [apply Qle_bool_iff in E; lra|lra]. Qed.
  Lemma maxw_ge rows : forall w, (w <= maxw rows w)%Q /\ forall lr, In lr rows -> (row_width s width lr <= maxw rows w)%Q.
  Proof.
    induction rows as [|lr rows IH]; intros w; cbn [maxw fold_left]; [split; [lra|intros ? []]|].
    destruct (IH (pymax (xrow lr) w)) as [H1 H2]. unfold maxw in *. split.
    - eapply Qle_trans; [apply pymax_r|exact H1].
    - intros lr' [<-|H]; [|exact (H2 _ H)]. eapply Qle_trans; [|exact H1]. rewrite <- xrow_width. apply pymax_l.
  Qed.
  Lemma maxw_attained rows : forall w, maxw rows w = w \/ exists lr, In lr rows /\ (maxw rows w == row_width s width lr)%Q.
  Proof.
    induction rows as [|lr rows IH]; intros w; cbn [maxw fold_left]; [auto|]. unfold maxw in *.
    destruct (IH (pymax (xrow lr) w)) as [E|(lr' & I & E)]; [|right; exists lr'; split; [right; exact I|exact E]].
    rewrite E. unfold pymax. destruct (negb (Qle_bool w (xrow lr))); [auto|]. right. exists lr. split; [left; reflexivity|apply xrow_width].
  Qed.
End Calc.

(** * Geometry *)
Unset Implicit Arguments.
Section Geometry.
  Variables (s : settings) (width : string -> Q).
  Hypothesis Hm : (0 <= buttonMargin s)%Q.
  Hypothesis Hg : (0 <= middleGap s)%Q.
  Hypothesis Hs : (0 <= sWidth s)%Q.
  Hypothesis Hw : forall b, (0 <= width b)%Q.
  Lemma buttonWidth_pos b : (0 <= buttonWidth s width b)%Q.
  Proof. unfold buttonWidth. apply Qmult_le_0_compat; auto. Qed.
  Lemma cellw_pos b : (0 <= cellw s width b)%Q.
  Proof. unfold cellw. pose proof (buttonWidth_pos b). lra. Qed.
  Lemma qsum_pos l : (0 <= qsum (map (cellw s width) l))%Q.
  Proof. unfold qsum. induction l as [|b l IH]; cbn [map fold_right]; [lra|]. pose proof (cellw_pos b). lra. Qed.
  Lemma qsum_firstn_lt l : forall j k b, nth_error l j = Some b -> j < k ->
    (qsum (map (cellw s width) (firstn j l)) + cellw s width b <= qsum (map (cellw s width) (firstn k l)))%Q.
  Proof.
    induction l as [|c l IH]; intros [|j] [|k] b E L; try discriminate; try lia.
    - injection E as ->. cbn [firstn map qsum fold_right]. pose proof (qsum_pos (firstn k l)). unfold qsum in *. lra.
    - cbn [nth_error] in E. assert (L' : j < k) by lia. specialize (IH j k b E L'). cbn [firstn map qsum fold_right]. unfold qsum in *. lra.
  Qed.
  Lemma x_of_lt lr j k b : nth_error (fst lr ++ snd lr) j = Some b -> j < k ->
    (x_of s width lr j + buttonWidth s width b + buttonMargin s <= x_of s width lr k)%Q.
  Proof.
    intros E L. unfold x_of. pose proof (qsum_firstn_lt _ _ _ _ E L) as H. unfold cellw at 2 in H.
    destruct (Nat.ltb_spec j (List.length (fst lr))), (Nat.ltb_spec k (List.length (fst lr))); try lia; lra.
  Qed.
  Lemma y_of_lt i k : i < k -> (y_of s i + sWidth s + buttonMargin s <= y_of s k)%Q.
  Proof.
    intros L. unfold y_of. assert (E : (Z.of_nat k = Z.of_nat i + 1 + Z.of_nat (k - i - 1))%Z) by lia.
    rewrite E, !inject_Z_plus. change (inject_Z 1) with 1%Q.
    assert (P : (0 <= inject_Z (Z.of_nat (k - i - 1)))%Q) by (change 0%Q with (inject_Z 0); rewrite <- Zle_Qle; lia).
    set (a := inject_Z (Z.of_nat i)). set (c := inject_Z (Z.of_nat (k - i - 1))) in *.
    pose proof (Qmult_le_0_compat c (sWidth s + buttonMargin s)%Q P ltac:(lra)) as M. lra.
  Qed.
  Lemma y_of_pos i : (0 <= y_of s i)%Q.
  Proof.
    unfold y_of. apply Qmult_le_0_compat; [change 0%Q with (inject_Z 0); rewrite <- Zle_Qle; lia|lra].
  Qed.
  Lemma x_of_pos lr j : (0 <= x_of s width lr j)%Q.
  Proof. unfold x_of. pose proof (qsum_pos (firstn j (fst lr ++ snd lr))). destruct (Nat.ltb j _); lra. Qed.
  Lemma x_of_row lr j b : nth_error (fst lr ++ snd lr) j = Some b ->
    (x_of s width lr j + buttonWidth s width b + buttonMargin s <= row_width s width lr)%Q.
  Proof.
    intros E. assert (L : j < List.length (fst lr ++ snd lr)) by (apply nth_error_Some; congruence).
    pose proof (qsum_firstn_lt _ _ _ _ E L) as H. rewrite firstn_all in H. unfold x_of, row_width, cellw in *.
    destruct (Nat.ltb j (List.length (fst lr))); lra.
  Qed.
End Geometry.
