(** Argument parsing (C40), and float comparison as a strict order. *)
From Coq Require Import SpecFloat.
From Verif Require Import Base LayoutModel CarpalxModel OptModel OptSpec OptProofs.
Open Scope list_scope.
Set Implicit Arguments.
Unset Strict Implicit.

Lemma split_on_nonempty c t : split_on c t <> [].
Proof. destruct t as [|x t]; cbn; [discriminate|]. destruct (N.eqb x c); [discriminate|]. destruct (split_on c t); discriminate. Qed.
(** Every string is the concatenation of its parts, which contain no separator. *)
Lemma split_on_join c t : join c (split_on c t) = t /\ Forall (fun p => ~ In c p) (split_on c t).
Proof.
  induction t as [|x t [IH F]]; cbn [split_on]; [split; [reflexivity|constructor; [intros []|constructor]]|].
  pose proof (@split_on_nonempty c t) as Ne.
  destruct (N.eqb_spec x c) as [->|Nx].
  - split; [|constructor; [intros []|assumption]].
    destruct (split_on c t) as [|p ps]; [congruence|]. cbn [join app]. f_equal. exact IH.
  - destruct (split_on c t) as [|p ps]; [congruence|]. inversion F as [|? ? Hp F']; subst.
    split; [destruct ps; cbn in *; congruence|]. constructor; [|assumption]. intros [E|E]; [congruence|contradiction].
Qed.
Lemma split_on_app c p r : ~ In c p -> split_on c (p ++ c :: r) = p :: split_on c r.
Proof.
  induction p as [|x p IH]; intros H; cbn [app split_on].
  - rewrite N.eqb_refl. reflexivity.
  - destruct (N.eqb_spec x c) as [->|]; [exfalso; apply H; left; reflexivity|].
    rewrite IH by (intros C; apply H; right; exact C). reflexivity.
Qed.
Lemma split_on_plain c p : ~ In c p -> split_on c p = [p].
Proof.
  induction p as [|x p IH]; intros H; cbn [split_on]; [reflexivity|].
  destruct (N.eqb_spec x c) as [->|]; [exfalso; apply H; left; reflexivity|].
  rewrite IH by (intros C; apply H; right; exact C). reflexivity.
Qed.
Lemma split_on_parts c ps : ps <> [] -> Forall (fun p => ~ In c p) ps -> split_on c (join c ps) = ps.
Proof.
  induction ps as [|p ps IH]; intros Ne F; [congruence|]. inversion F as [|? ? Hp F']; subst.
  destruct ps as [|q ps]; cbn [join]; [now apply split_on_plain|].
  rewrite split_on_app by assumption. f_equal. apply IH; [discriminate|assumption].
Qed.
Lemma split_once_plain c p : ~ In c p -> split_once c p = [p].
Proof.
  induction p as [|x p IH]; intros H; cbn [split_once]; [reflexivity|].
  destruct (N.eqb_spec x c) as [->|]; [exfalso; apply H; left; reflexivity|].
  rewrite IH by (intros C; apply H; right; exact C). reflexivity.
Qed.
Lemma split_once_app c p r : ~ In c p -> split_once c (p ++ c :: r) = [p; r].
Proof.
  induction p as [|x p IH]; intros H; cbn [app split_once].
  - rewrite N.eqb_refl. reflexivity.
  - destruct (N.eqb_spec x c) as [->|]; [exfalso; apply H; left; reflexivity|].
    rewrite IH by (intros C; apply H; right; exact C). reflexivity.
Qed.
Lemma first_sep c (t : text) : ~ In c t \/ exists p r, ~ In c p /\ t = p ++ c :: r.
Proof.
  induction t as [|x t IH]; [left; intros []|]. destruct (N.eq_dec x c) as [->|Nx].
  - right. exists [], t. split; [intros []|reflexivity].
  - destruct IH as [H|(p & r & Hp & ->)].
    + left. intros [E|E]; [congruence|contradiction].
    + right. exists (x :: p), r. split; [|reflexivity]. intros [E|E]; [congruence|contradiction].
Qed.

Section Set_.
  Context {A : Type} `{EqDec A}.
  Lemma set_of_In (l : list A) : forall acc x,
    In x (fold_left (fun acc x => if mem x acc then acc else acc ++ [x]) l acc) <-> In x acc \/ In x l.
  Proof.
    induction l as [|y l IH]; intros acc x; cbn [fold_left]; [cbn; tauto|]. rewrite IH.
    destruct (mem y acc) eqn:E.
    - apply mem_In in E. cbn. intuition congruence.
    - rewrite in_app_iff. cbn. tauto.
  Qed.
  Lemma set_of_NoDup (l : list A) : forall acc, NoDup acc ->
    NoDup (fold_left (fun acc x => if mem x acc then acc else acc ++ [x]) l acc).
  Proof.
    induction l as [|y l IH]; intros acc N; cbn [fold_left]; [assumption|]. apply IH.
    destruct (mem y acc) eqn:E; [assumption|]. apply mem_nIn in E.
    apply (Permutation_NoDup (Permutation_cons_append acc y)). constructor; auto.
  Qed.
End Set_.

(** * SFltb *)
Lemma pos_lt_trans a b c : Pos.compare_cont Eq a b = Lt -> Pos.compare_cont Eq b c = Lt -> Pos.compare_cont Eq a c = Lt.
Proof. apply (Pos.lt_trans a b c). Qed.
Lemma cmp_opp (c : comparison) : CompOpp c = Lt <-> c = Gt.
Proof. destruct c; cbn; split; congruence. Qed.
Lemma strict_F : strict Fnum.
Proof.
  split; cbn [nltb Fnum carrier].
  - intros [s|s| |s m e]; unfold SFltb; cbn; try (destruct s); try reflexivity;
      rewrite Z.compare_refl; rewrite (Pos.compare_cont_refl m Eq); reflexivity.
  - assert (K : forall x y, SFltb x y = true <-> SFcompare x y = Some Lt).
    { intros x y. unfold SFltb. destruct (SFcompare x y) as [[]|]; split; congruence. }
    intros x y z. rewrite !K.
    destruct x as [sx|sx| |sx mx ex], y as [sy|sy| |sy my ey], z as [sz|sz| |sz mz ez]; cbn;
      try (destruct sx); try (destruct sy); try (destruct sz); try congruence.
    + intros A B.
      assert (A' : (ey < ex)%Z \/ (ex = ey /\ Pos.compare_cont Eq mx my = Gt)).
      { destruct (ex ?= ey)%Z eqn:Ec; [right|discriminate|left].
        - apply Z.compare_eq in Ec. split; [assumption|]. injection A as A. now apply cmp_opp.
        - now apply Z.gt_lt in Ec. }
      assert (B' : (ez < ey)%Z \/ (ey = ez /\ Pos.compare_cont Eq my mz = Gt)).
      { destruct (ey ?= ez)%Z eqn:Ec; [right|discriminate|left].
        - apply Z.compare_eq in Ec. split; [assumption|]. injection B as B. now apply cmp_opp.
        - now apply Z.gt_lt in Ec. }
      destruct (ex ?= ez)%Z eqn:Ec; [|change (ex < ez)%Z in Ec; destruct A' as [?|[? _]], B' as [?|[? _]]; exfalso; lia|reflexivity].
      apply Z.compare_eq in Ec. destruct A' as [A'|[A1 A2]], B' as [B'|[B1 B2]]; try (exfalso; lia).
      change ((mx ?= my)%positive = Gt) in A2. change ((my ?= mz)%positive = Gt) in B2.
      f_equal. apply cmp_opp. change ((mx ?= mz)%positive = Gt).
      apply Pos.compare_gt_iff in A2. apply Pos.compare_gt_iff in B2. apply Pos.compare_gt_iff. lia.
    + intros A B.
      assert (A' : (ex < ey)%Z \/ (ex = ey /\ Pos.compare_cont Eq mx my = Lt)).
      { destruct (ex ?= ey)%Z eqn:Ec; [right|left|discriminate].
        - apply Z.compare_eq in Ec. split; congruence.
        - exact Ec. }
      assert (B' : (ey < ez)%Z \/ (ey = ez /\ Pos.compare_cont Eq my mz = Lt)).
      { destruct (ey ?= ez)%Z eqn:Ec; [right|left|discriminate].
        - apply Z.compare_eq in Ec. split; congruence.
        - exact Ec. }
      destruct (ex ?= ez)%Z eqn:Ec; [|reflexivity|apply Z.gt_lt in Ec; destruct A' as [?|[? _]], B' as [?|[? _]]; exfalso; lia].
      apply Z.compare_eq in Ec. destruct A' as [A'|[A1 A2]], B' as [B'|[B1 B2]]; try (exfalso; lia).
      f_equal. eapply pos_lt_trans; eauto.
Qed.
