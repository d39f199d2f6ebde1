From Coq Require Import QArith Lqa Lia.
From Verif Require Import Base LayoutModel CarpalxModel CarpalxSpec.
Close Scope Q_scope.
Open Scope string_scope.
Open Scope list_scope.

(** * C30 *)
Lemma hand_path_ok h0 h1 h2 : hand_path h0 h1 h2 (strokePathHand h0 h1 h2).
Proof. destruct h0, h1, h2; cbn; constructor; discriminate. Qed.
Lemma hand_path_fun h0 h1 h2 v w : hand_path h0 h1 h2 v -> hand_path h0 h1 h2 w -> v = w.
Proof. intros A B; destruct A; inversion B; subst; congruence. Qed.

Ltac zb := repeat match goal with
  | |- context [if ?b then _ else _] => destruct b eqn:?
  end.
Lemma row_path_ok r0 r1 r2 : exists v, strokePathRow r0 r1 r2 = Ok v /\ row_path r0 r1 r2 v.
Proof.
  unfold strokePathRow.
  repeat match goal with |- context [if ?b then _ else _] => destruct b eqn:? end;
    try (eexists; split; [reflexivity|]).
  - apply RP_same; lia.
  - apply RP_down_rep; lia.
  - apply RP_up_rep; lia.
  - apply RP_zigzag_1; unfold zigzag, drop, rise; lia.
  - apply RP_down; lia.
  - apply RP_up; lia.
  - apply RP_zigzag_down; unfold zigzag, drop; lia.
  - apply RP_zigzag_up; unfold zigzag, drop, rise; lia.
  - exfalso; lia.
Qed.
Lemma row_path_fun a b c v w : row_path a b c v -> row_path a b c w -> v = w.
Proof.
  intros A B; destruct A; inversion B; subst; try reflexivity; exfalso;
    unfold zigzag, drop, rise in *; lia.
Qed.

Lemma finger_pos_no g i : finger_pos g i -> finger_no g = Z.of_nat (S i).
Proof.
  unfold finger_pos, left_to_right.
  do 10 (destruct i as [|i]; [cbn; intros E; inversion E; subst; reflexivity|]).
  cbn. destruct i; discriminate.
Qed.
Lemma finger_pos_ex g : exists i, finger_pos g i.
Proof.
  unfold finger_pos, left_to_right. destruct g as [[] []];
  [exists 0|exists 1|exists 2|exists 3|exists 4|exists 9|exists 8|exists 7|exists 6|exists 5]; reflexivity.
Qed.
Lemma keyRepeat_iff x y z : eqb x y || eqb y z || eqb x z = true <-> repeat_key x y z.
Proof. unfold repeat_key. rewrite !orb_true_iff, !eqb_eq. tauto. Qed.
Lemma keyRepeat_not x y z : eqb x y || eqb y z || eqb x z = false <-> ~ repeat_key x y z.
Proof. rewrite <- keyRepeat_iff. destruct (eqb x y || eqb y z || eqb x z); split; congruence. Qed.
Lemma finger_path_ok g0 g1 g2 x y z i j k :
  finger_pos g0 i -> finger_pos g1 j -> finger_pos g2 k ->
  exists v, strokePathFinger g0 g1 g2 x y z = Ok v /\ finger_path i j k x y z v.
Proof.
  intros A B C. apply finger_pos_no in A, B, C. unfold strokePathFinger. rewrite A, B, C.
  pose proof (keyRepeat_iff x y z) as K1. pose proof (keyRepeat_not x y z) as K2.
  destruct (eqb x y || eqb y z || eqb x z).
  all: repeat match goal with |- context [if ?b then _ else _] => destruct b eqn:? end;
    try (eexists; split; [reflexivity|]).
  all: try (exfalso; lia).
  all: try (apply FP_same_rep; unfold same3; [lia|tauto]).
  all: try (apply FP_same_norep; unfold same3; [lia|tauto]).
  all: try (apply FP_rolling; unfold rolling; lia).
  all: try (apply FP_monotone; unfold distinct3, monotone; lia).
  all: try (apply FP_all_diff; unfold distinct3, monotone, rolling; lia).
  all: try (apply FP_some_rep; unfold distinct3, monotone, same3; [lia|lia|lia|tauto]).
  all: try (apply FP_some_norep; unfold distinct3, monotone, same3; [lia|lia|lia|tauto]).
  all: try (apply FP_some_diff; unfold distinct3, monotone, same3; lia).
Qed.
Lemma finger_path_fun a b c x y z v w : finger_path a b c x y z v -> finger_path a b c x y z w -> v = w.
Proof.
  intros A B; destruct A; inversion B; subst; try reflexivity; try tauto; exfalso;
    unfold distinct3, same3, monotone, rolling in *; lia.
Qed.

Lemma mirror_hand a b c : strokePathHand (mirror a) (mirror b) (mirror c) = strokePathHand a b c.
Proof. destruct a, b, c; reflexivity. Qed.
Lemma mirror_no g : finger_no (mirror (fst g), snd g) = (11 - finger_no g)%Z.
Proof. destruct g as [[] []]; reflexivity. Qed.
Lemma mirror_finger a b c x y z :
  strokePathFinger (mirror (fst a), snd a) (mirror (fst b), snd b) (mirror (fst c), snd c) x y z
  = strokePathFinger a b c x y z.
Proof.
  unfold strokePathFinger. rewrite !mirror_no.
  generalize (finger_no a) (finger_no b) (finger_no c) (eqb x y || eqb y z || eqb x z). intros f g h kr.
  destruct kr; repeat match goal with |- context [if ?b then _ else _] => destruct b eqn:? end;
    try reflexivity; exfalso; lia.
Qed.
Lemma dget_mirror fm b :
  dget (mirror_fm fm) b = match dget fm b with Some g => Some (mirror (fst g), snd g) | None => None end.
Proof. induction fm as [|[k g] fm IH]; cbn; [reflexivity|]. destruct (String.eqb b k); auto. Qed.
Lemma mapM_mirror {nm} (m : model nm) t :
  mapM (handFinger (mirrored m)) t =
  match mapM (handFinger m) t with Ok l => Ok (map (fun g => (mirror (fst g), snd g)) l) | Raise e => Raise e end.
Proof.
  induction t as [|b t IH]; cbn [mapM]; [reflexivity|].
  unfold handFinger at 1. cbn [mirrored mfm]. unfold dgetM. rewrite dget_mirror.
  unfold handFinger at 2, dgetM. destruct (dget (mfm m) b) as [g|]; cbn; [|reflexivity].
  rewrite IH. destruct (mapM (handFinger m) t); reflexivity.
Qed.
Lemma mirror_strokePath {nm} (m : model nm) t : strokePath (mirrored m) t = strokePath m t.
Proof.
  unfold strokePath. rewrite mapM_mirror. destruct (mapM (handFinger m) t) as [fs|]; cbn [bind]; [|reflexivity].
  change (getRow (mirrored m)) with (getRow m).
  destruct (mapM (getRow m) t) as [rs|]; cbn [bind]; [|reflexivity].
  destruct t as [|t0 [|t1 [|t2 t]]]; try reflexivity.
  destruct fs as [|f0 [|f1 [|f2 fs]]]; cbn [map]; try reflexivity.
  destruct rs as [|r0 [|r1 [|r2 rs]]]; try reflexivity.
  rewrite mirror_finger. cbn [fst]. rewrite mirror_hand. reflexivity.
Qed.

(** A stroke path is defined for known buttons and means what it should. *)
Lemma strokePath_ok {nm} (m : model nm) x y z gx gy gz rx ry rz i j k :
  dget (mfm m) x = Some gx -> dget (mfm m) y = Some gy -> dget (mfm m) z = Some gz ->
  dget (mrows m) x = Some rx -> dget (mrows m) y = Some ry -> dget (mrows m) z = Some rz ->
  finger_pos gx i -> finger_pos gy j -> finger_pos gz k ->
  exists h r f, strokePath m [x; y; z] = Ok (h, r, f) /\
    hand_path (fst gx) (fst gy) (fst gz) h /\
    row_path (Z.of_nat rx) (Z.of_nat ry) (Z.of_nat rz) r /\ finger_path i j k x y z f.
Proof.
  intros A B C D E F P1 P2 P3.
  unfold strokePath, handFinger, getRow, dgetM. cbn [mapM]. rewrite A, B, C, D, E, F. cbn [of_opt bind].
  destruct (row_path_ok (Z.of_nat rx) (Z.of_nat ry) (Z.of_nat rz)) as (r & -> & Hr).
  destruct (finger_path_ok _ _ _ x y z _ _ _ P1 P2 P3) as (f & -> & Hf). cbn [bind].
  exists (strokePathHand (fst gx) (fst gy) (fst gz)), r, f. split; [reflexivity|]. auto using hand_path_ok.
Qed.
Lemma hand_path_range a b c v : hand_path a b c v -> (0 <= v <= 2)%Z.
Proof. destruct 1; lia. Qed.
Lemma row_path_range a b c v : row_path a b c v -> (0 <= v <= 7)%Z.
Proof. destruct 1; lia. Qed.
Lemma finger_path_range a b c x y z v : finger_path a b c x y z v -> (0 <= v <= 7)%Z.
Proof. destruct 1; lia. Qed.

(** * C29: caches hold what would be computed *)
Section Cache.
  Context {nm : num}.
  Notation T := (carrier nm).
  Implicit Types w : @cworld nm.
  Definition strip (o : @inst nm) : robj nm := mkR (imodel o) (iabs o) (icount o).
  Definition cache_ok w : Prop :=
    Forall (fun o => icache o < List.length (caches w) /\
      forall t e, dget (cacheOf w (icache o)) t = Some e -> triadCompute (imodel o) t = Ok e) (insts w) /\
    (forall o o', In o (insts w) -> In o' (insts w) -> icache o = icache o' -> imodel o = imodel o').

  Lemma upd_length {A} (l : list A) i x : List.length (upd l i x) = List.length l.
  Proof. revert i; induction l as [|y l IH]; intros [|i]; cbn; auto. Qed.
  Lemma nth_upd {A} (l : list A) i j x d : nth j (upd l i x) d =
    if Nat.eqb j i then (if Nat.ltb i (List.length l) then x else d) else nth j l d.
  Proof.
    revert i j; induction l as [|y l IH]; intros [|i] [|j]; cbn; auto.
    all: try (destruct (Nat.eqb j i); reflexivity).
    rewrite IH. destruct (Nat.eqb j i); [|reflexivity]. reflexivity.
  Qed.
  Lemma nth_error_upd {A} (l : list A) i j x : nth_error (upd l i x) j =
    if Nat.eqb j i then (if Nat.ltb i (List.length l) then Some x else None) else nth_error l j.
  Proof.
    revert i j; induction l as [|y l IH]; intros [|i] [|j]; cbn; auto.
    all: try (destruct (Nat.eqb j i); reflexivity).
    rewrite IH. destruct (Nat.eqb j i); reflexivity.
  Qed.
  Lemma map_upd {A B} (f : A -> B) l i x : map f (upd l i x) = upd (map f l) i (f x).
  Proof. revert i; induction l as [|y l IH]; intros [|i]; cbn; f_equal; auto. Qed.
  Lemma upd_same {A} (l : list A) i x : nth_error l i = Some x -> upd l i x = l.
  Proof. revert i; induction l as [|y l IH]; intros [|i] E; cbn in *; try discriminate; [congruence|f_equal; auto]. Qed.
  Lemma upd_upd {A} (l : list A) i x y : upd (upd l i x) i y = upd l i y.
  Proof. revert i; induction l as [|z l IH]; intros [|i]; cbn; f_equal; auto. Qed.
  Lemma In_upd {A} (l : list A) i x y : In y (upd l i x) -> y = x \/ In y l.
  Proof. revert i; induction l as [|z l IH]; intros [|i]; cbn; intuition auto. apply IH in H0; tauto. Qed.

  Lemma cache_ok_inst w o : cache_ok w -> In o (insts w) ->
    icache o < List.length (caches w) /\
    forall t e, dget (cacheOf w (icache o)) t = Some e -> triadCompute (imodel o) t = Ok e.
  Proof. intros [A _] I. rewrite Forall_forall in A. auto. Qed.

  Lemma triadEffort_ok w o t : cache_ok w -> In o (insts w) ->
    let (w', r) := triadEffort w o t in
    r = triadCompute (imodel o) t /\ insts w' = insts w /\ cache_ok w' /\
    List.length (caches w') = List.length (caches w) /\ (is_ok r = false -> w' = w).
  Proof.
    intros C I. destruct (cache_ok_inst w o C I) as [L V]. unfold triadEffort.
    destruct (dget (cacheOf w (icache o)) t) as [e|] eqn:E.
    { rewrite (V _ _ E). repeat split; auto; apply C. }
    destruct (triadCompute (imodel o) t) as [e|e] eqn:F; [|repeat split; auto; apply C].
    cbn [insts caches]. split; [reflexivity|]. split; [reflexivity|]. split; [|split; [apply upd_length|discriminate]].
    destruct C as [C1 C2]. split; [|exact C2]. cbn [insts]. rewrite Forall_forall in C1 |- *.
    intros o' I'. destruct (C1 o' I') as [L' V']. cbn [caches]. rewrite upd_length. split; [exact L'|].
    intros t' e'. unfold cacheOf. cbn [caches]. rewrite nth_upd.
    destruct (Nat.eqb_spec (icache o') (icache o)) as [Ec|]; [|apply V'].
    rewrite (proj2 (Nat.ltb_lt _ _) L), dget_dset.
    rewrite (C2 _ _ I' I Ec).
    destruct (eqb_spec t' t) as [->|_]; [intros G; injection G as <-; exact F|].
    intros G. apply (V _ _ G).
  Qed.

  (** replacing the fields of an object *)
  Lemma setInst_ok w i o a n : cache_ok w -> nth_error (insts w) i = Some o ->
    cache_ok (setInst w i (mkInst (imodel o) a n (icache o))).
  Proof.
    intros [C1 C2] E. assert (I : In o (insts w)) by (eapply nth_error_In; eauto).
    rewrite Forall_forall in C1. split.
    - apply Forall_forall. intros o' I'. cbn in I'. destruct (In_upd _ _ _ _ I') as [->|I'']; [apply (C1 o I)|apply (C1 o' I'')].
    - intros o1 o2 I1 I2. cbn in I1, I2.
      destruct (In_upd _ _ _ _ I1) as [->|J1], (In_upd _ _ _ _ I2) as [->|J2]; cbn; intros Ec; auto.
  Qed.

  Lemma account_sim f w i t n : cache_ok w ->
    let (w', r) := account f w i t n in
    cache_ok w' /\ rupd (map strip (insts w)) i (racc f t n) = (map strip (insts w'), r).
  Proof.
    intros C. unfold account, rupd. rewrite nth_error_map.
    destruct (nth_error (insts w) i) as [o|] eqn:E; cbn [option_map]; [|auto].
    assert (I : In o (insts w)) by (eapply nth_error_In; eauto).
    pose proof (triadEffort_ok w o t C I) as S. destruct (triadEffort w o t) as [w' r].
    destruct S as (-> & Ei & C' & _ & Hf). unfold racc, strip at 1; cbn [rmodel].
    destruct (triadCompute (imodel o) t) as [e|e]; cbn.
    - split; [apply setInst_ok; auto; rewrite Ei; auto|].
      rewrite Ei, map_upd. reflexivity.
    - split; [auto|]. rewrite upd_same; [|rewrite nth_error_map, E; reflexivity].
      rewrite Ei. reflexivity.
  Qed.

  Lemma addTriads_sim ts : forall w i, cache_ok w ->
    let (w', r) := addTriads w i ts in
    cache_ok w' /\ rstep (map strip (insts w)) (CAddMany i ts) = (map strip (insts w'), r).
  Proof.
    induction ts as [|[t n] ts IH]; intros w i C; cbn [addTriads rstep]; [auto|].
    unfold addTriad. pose proof (account_sim nadd w i t n C) as S.
    destruct (account nadd w i t n) as [w1 r1]. destruct S as [C1 S1].
    unfold rupd in S1 |- *. destruct (nth_error (map strip (insts w)) i) as [o|] eqn:E.
    2: { inversion S1; subst. split; auto. }
    cbn [racc_many]. destruct (racc nadd t n o) as [o1 r1'] eqn:R. inversion S1; subst r1'.
    destruct r1 as [u|e]; [|split; auto].
    specialize (IH w1 i C1). destruct (addTriads w1 i ts) as [w2 r2]. destruct IH as [C2 S2].
    split; [auto|]. cbn [rstep] in S2. rewrite <- H0 in S2.
    assert (Ei : nth_error (upd (map strip (insts w)) i o1) i = Some o1).
    { rewrite nth_error_upd, Nat.eqb_refl.
      assert (i < List.length (map strip (insts w))) as L by (apply nth_error_Some; congruence).
      apply Nat.ltb_lt in L. rewrite L. reflexivity. }
    destruct ts as [|tn ts].
    - cbn [racc_many]. rewrite S2. destruct u. reflexivity.
    - unfold rupd in S2. rewrite Ei in S2. destruct (racc_many (tn :: ts) o1) as [o2 r2'].
      rewrite upd_upd in S2. exact S2.
  Qed.

  Lemma cstep_sim w o : cache_ok w ->
    let (w', r) := cstep w o in
    cache_ok w' /\ rstep (map strip (insts w)) o = (map strip (insts w'), r).
  Proof.
    intros C. destruct o as [m|i t n|i t n|i ts|i|i]; cbn [cstep].
    - unfold create, rstep. destruct (initCheck m); [|auto]. cbn [insts]. rewrite map_app. split; [|reflexivity].
      destruct C as [C1 C2]. rewrite Forall_forall in C1. split.
      + apply Forall_forall. cbn [insts caches]. intros o I. rewrite app_length; cbn [List.length].
        unfold cacheOf; cbn [caches]. apply in_app_or in I. destruct I as [I|[<-|[]]].
        * destruct (C1 o I) as [L V]. split; [lia|]. rewrite app_nth1 by exact L. exact V.
        * cbn [icache]. split; [lia|]. rewrite app_nth2, Nat.sub_diag by lia. cbn. discriminate.
      + cbn [insts]. intros o o' I I' Ec. apply in_app_or in I, I'.
        destruct I as [I|[<-|[]]], I' as [I'|[<-|[]]]; auto; cbn in Ec; exfalso.
        * destruct (C1 o I). lia.
        * destruct (C1 o' I'). lia.
    - apply account_sim; auto.
    - apply account_sim; auto.
    - apply addTriads_sim; auto.
    - unfold reset, rstep, rupd. rewrite nth_error_map.
      destruct (nth_error (insts w) i) as [o|] eqn:E; cbn [option_map]; [|auto].
      split; [apply setInst_ok; auto|]. cbn. rewrite map_upd. reflexivity.
    - unfold copy, rstep. rewrite nth_error_map.
      destruct (nth_error (insts w) i) as [o|] eqn:E; cbn [option_map]; [|auto].
      unfold strip at 1; cbn [rmodel]. destruct (initCheck (imodel o)); [|auto].
      cbn [insts]. rewrite map_app. split; [|reflexivity].
      assert (I : In o (insts w)) by (eapply nth_error_In; eauto).
      destruct C as [C1 C2]. rewrite Forall_forall in C1. split.
      + apply Forall_forall. cbn [insts caches]. intros o' I'. apply in_app_or in I'.
        destruct I' as [I'|[<-|[]]]; [apply (C1 o' I')|apply (C1 o I)].
      + cbn [insts]. intros o1 o2 I1 I2 Ec. apply in_app_or in I1, I2.
        destruct I1 as [I1|[<-|[]]], I2 as [I2|[<-|[]]]; cbn in *; auto.
  Qed.
  Lemma cempty_ok : cache_ok cempty.
  Proof. split; [constructor|intros o o' []]. Qed.
  Lemma crun_sim os : forall w, cache_ok w ->
    let (w', rs) := crun w os in
    cache_ok w' /\ rrun (map strip (insts w)) os = (map strip (insts w'), rs).
  Proof.
    induction os as [|o os IH]; intros w C; cbn [crun rrun]; [auto|].
    pose proof (cstep_sim w o C) as S. destruct (cstep w o) as [w1 r]. destruct S as [C1 ->].
    specialize (IH w1 C1). destruct (crun w1 os) as [w2 rs]. destruct IH as [C2 ->]. auto.
  Qed.
End Cache.
