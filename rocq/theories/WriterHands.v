(** Consequences of the choice criteria for the usual alternatives. *)
From Verif Require Import Base LayoutModel LayoutSpec LayoutProofs WriterModel WriterSpec WriterProofs.
Set Implicit Arguments.
Open Scope list_scope.

Section Hands.
  Variable fm : list (string * (direction * finger)).
  Hypothesis fm_small : length fm < 128.

  Lemma on_hand_in b d : on_hand fm b d -> In b (dkeys fm).
  Proof. intros [f H]. apply dget_In in H. apply (in_map fst) in H. exact H. Qed.
  Lemma on_hand_side b d : on_hand fm b d -> side fm b = dirToScore d.
  Proof. intros [f H]. unfold side. rewrite H. destruct d; reflexivity. Qed.

  Lemma elems_single b : elems (frozenset [b]) = [b].
  Proof. reflexivity. Qed.
  Lemma press_fingered b d : on_hand fm b d -> comb_fingered fm (press1 b).
  Proof.
    intros H. split; cbn [press1 cmod cbtn]; [intros x []|]. rewrite elems_single. intros x [<-|[]]. eapply on_hand_in, H.
  Qed.
  Lemma press2_fingered m b d d' : on_hand fm m d -> on_hand fm b d' -> comb_fingered fm (press2 m b).
  Proof.
    intros H H'. split; cbn [press2 cmod cbtn]; rewrite elems_single; intros x [<-|[]]; eapply on_hand_in; eassumption.
  Qed.

  Lemma choose_two prev a b : prev_fingered fm prev -> comb_fingered fm a -> comb_fingered fm b ->
    (lex_lt (criteria fm prev b) (criteria fm prev a) -> chooseCombination fm prev [a; b] = Ok b) /\
    (~ lex_lt (criteria fm prev b) (criteria fm prev a) -> chooseCombination fm prev [a; b] = Ok a).
  Proof.
    intros Hp Ha Hb.
    destruct (@chooseCombination_lex fm fm_small prev [a; b]) as (l1 & c & l2 & E & El & F1 & F2);
      [congruence|exact Hp|exact (Forall_cons _ Ha (Forall_cons _ Hb (Forall_nil _)))|].
    destruct l1 as [|x [|y l1]]; cbn [app] in El.
    - injection El as Ec El2. subst c. subst l2. inversion F2 as [|? ? H1 _]; subst. split; intros H; [contradiction|exact E].
    - injection El as Ex Ec El2. subst x c. subst l2. inversion F1 as [|? ? H1 _]; subst. split; intros H; [exact E|contradiction].
    - exfalso. inversion El as [[E1 E2 E3]]. destruct l1; discriminate.
  Qed.

  Lemma lex_irrefl a : ~ lex_lt a a.
  Proof. destruct a as [[a b] c]. cbn. lia. Qed.
  Lemma bal_one b : bal fm [b] = side fm b.
  Proof. cbn. lia. Qed.

  Lemma criteria_press1 p x d : on_hand fm x d ->
    criteria fm (Some p) (press1 x) = (1%Z, 1%Z, Z.abs (lean fm p + dirToScore d)).
  Proof.
    intros H. unfold criteria. cbn [press1 cmod cbtn]. rewrite elems_single.
    change (elems (frozenset [])) with (@nil string). cbn [app length].
    rewrite bal_one, bal_app, bal_one, (on_hand_side H). unfold lean.
    destruct d; reflexivity.
  Qed.

  (** Two one-button alternatives on different hands. *)
  Theorem two_keys p l r cs : comb_fingered fm p -> on_hand fm l LEFT -> on_hand fm r RIGHT ->
    cs = [press1 l; press1 r] \/ cs = [press1 r; press1 l] ->
    ((lean fm p > 0)%Z -> chooseCombination fm (Some p) cs = Ok (press1 r)) /\
    ((lean fm p < 0)%Z -> chooseCombination fm (Some p) cs = Ok (press1 l)) /\
    (lean fm p = 0%Z -> chooseCombination fm (Some p) cs = Ok (hd (press1 l) cs)).
  Proof.
    intros Hp Hl Hr Hcs. pose proof (press_fingered Hl) as Fl. pose proof (press_fingered Hr) as Fr.
    destruct Hcs as [->| ->].
    - destruct (choose_two (Some p) Hp Fl Fr) as [C1 C2].
      rewrite (criteria_press1 p Hl), (criteria_press1 p Hr) in *. cbn [dirToScore] in *. unfold lex_lt in *.
      repeat split; intros H; [apply C1|apply C2|apply C2]; lia.
    - destruct (choose_two (Some p) Hp Fr Fl) as [C1 C2].
      rewrite (criteria_press1 p Hl), (criteria_press1 p Hr) in *. cbn [dirToScore] in *. unfold lex_lt in *.
      repeat split; intros H; [apply C2|apply C1|apply C2]; lia.
  Qed.

  Lemma lean_press1 q d : on_hand fm q d -> lean fm (press1 q) = dirToScore d.
  Proof. intros H. unfold lean. cbn [press1 cmod cbtn]. change (elems (frozenset [])) with (@nil string). cbn [length Nat.eqb]. rewrite elems_single, bal_one. apply on_hand_side, H. Qed.
  Lemma lean_press2 m b d : on_hand fm m d -> lean fm (press2 m b) = dirToScore d.
  Proof. intros H. unfold lean. cbn [press2 cmod cbtn]. rewrite !elems_single. cbn [length Nat.eqb]. rewrite bal_one. apply on_hand_side, H. Qed.

  Theorem alternate p d l r cs : (exists q, p = press1 q /\ on_hand fm q d) \/ (exists m b db, p = press2 m b /\ on_hand fm m d /\ on_hand fm b db) ->
    on_hand fm l LEFT -> on_hand fm r RIGHT -> cs = [press1 l; press1 r] \/ cs = [press1 r; press1 l] ->
    chooseCombination fm (Some p) cs = Ok (press1 (match d with LEFT => r | RIGHT => l end)).
  Proof.
    intros Hp Hl Hr Hcs.
    assert (Hpf : comb_fingered fm p /\ lean fm p = dirToScore d).
    { destruct Hp as [(q & -> & Hq)|(m & b & db & -> & Hm & Hb)].
      - split; [eapply press_fingered, Hq|apply lean_press1, Hq].
      - split; [eapply press2_fingered; eassumption|apply lean_press2, Hm]. }
    destruct Hpf as [Hf He]. destruct (two_keys Hf Hl Hr Hcs) as (C1 & C2 & _).
    destruct d; cbn [dirToScore] in He; [apply C1|apply C2]; lia.
  Qed.

  Theorem two_mods prev ml mr k d cs : prev_fingered fm prev -> on_hand fm ml LEFT -> on_hand fm mr RIGHT -> on_hand fm k d ->
    cs = [press2 ml k; press2 mr k] \/ cs = [press2 mr k; press2 ml k] ->
    chooseCombination fm prev cs = Ok (press2 (match d with LEFT => mr | RIGHT => ml end) k).
  Proof.
    intros Hp Hl Hr Hk Hcs. pose proof (press2_fingered Hl Hk) as Fl. pose proof (press2_fingered Hr Hk) as Fr.
    assert (B : forall m dm, on_hand fm m dm -> snd (fst (criteria fm prev (press2 m k))) = Z.abs (dirToScore dm + dirToScore d)
       /\ fst (fst (criteria fm prev (press2 m k))) = 2%Z).
    { intros m dm Hm. unfold criteria. cbn [press2 cmod cbtn fst snd]. rewrite !elems_single. cbn [app length].
      change [m; k] with ([m] ++ [k]). rewrite bal_app, !bal_one, (on_hand_side Hm), (on_hand_side Hk). auto. }
    destruct (B _ _ Hl) as [B1 B2], (B _ _ Hr) as [B3 B4].
    destruct (criteria fm prev (press2 ml k)) as [[a1 a2] a3] eqn:El, (criteria fm prev (press2 mr k)) as [[b1 b2] b3] eqn:Er.
    cbn [fst snd] in *. subst.
    destruct Hcs as [->| ->].
    - destruct (choose_two prev Hp Fl Fr) as [C1 C2]. rewrite El, Er in *. unfold lex_lt in *.
      destruct d; [apply C1|apply C2]; vm_compute; intuition discriminate.
    - destruct (choose_two prev Hp Fr Fl) as [C1 C2]. rewrite El, Er in *. unfold lex_lt in *.
      destruct d; [apply C2|apply C1]; vm_compute; intuition discriminate.
  Qed.

  (** Without history the first of two single-button alternatives wins. *)
  Theorem no_history a b da db : on_hand fm a da -> on_hand fm b db ->
    chooseCombination fm None [press1 a; press1 b] = Ok (press1 a).
  Proof.
    intros Ha Hb. apply (choose_two None I (press_fingered Ha) (press_fingered Hb)).
    unfold criteria. cbn [press1 cmod cbtn]. rewrite !elems_single. change (elems (frozenset [])) with (@nil string). cbn [app length].
    rewrite !bal_one, (on_hand_side Ha), (on_hand_side Hb). unfold lex_lt. destruct da, db; cbn; lia.
  Qed.
End Hands.
