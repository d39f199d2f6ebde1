(** C28-C32: typing effort *)
From Coq Require Import QArith Lqa SpecFloat.
From Verif Require Import Base KeyboardModel LayoutModel LayoutSpec LayoutProofs WriterModel WriterSpec WriterProofs
  StatsModel StatsSpec StatsProofs MergeProofs StatsAll CarpalxModel CarpalxSpec CarpalxProofs CarpalxQ CarpalxShipped
  DataKeyboard DataLayouts DataFingermap DataModels ShippedProofs PropsWriter.
Close Scope Q_scope.
Open Scope string_scope.
Open Scope list_scope.

Definition run {nm} (os : list (@cop nm)) : @cworld nm := fst (crun cempty os).
Definition key (b : string) : comb := mkComb (frozenset []) (frozenset [b]).
Definition chord (a b : string) : comb := mkComb (frozenset [a]) (frozenset [b]).
Definition mQ : model Qnum := shipped_model mod01 comb_iter.
Definition mF : model Fnum := shipped_model mod01 comb_iter.
Definition tA : triad := [key "Dl1"; key "Er5"; key "Cr4"].
Definition tB : triad := [chord "El_shift" "Cl2"; key "Dl4"; key "Dr6"].

(** * C28 *)
(** After any history every object's fields and effort are those of its ledger. *)
Theorem C28_weighted_mean (os : list (@cop Qnum)) :
  Forall2 (fun (o : @inst Qnum) (ml : lobj) => imodel o = fst ml /\
      (icount o == weight (snd ml))%Q /\ (iabs o == total scoreQ (fst ml) (snd ml))%Q /\
      (effort o == mean scoreQ (fst ml) (snd ml))%Q)
    (insts (run os)) (lrun [] os).
Proof.
  pose proof (crun_books os) as F. unfold run. induction F as [|o lo l ll B F IH]; constructor; auto.
  pose proof B as (A & C & D). split; [exact A|]. split; [exact C|]. split; [exact D|]. apply effort_mean, B.
Qed.

Definition adds_to {nm} (i : nat) (o : @cop nm) : Prop :=
  match o with CAdd j _ _ | CRemove j _ _ => j = i | _ => False end.
Definition entry_of (m : model Qnum) (o : @cop Qnum) : ledger :=
  match o with
  | CAdd _ t n => match scoreQ m t with Some _ => [(t, n)] | None => [] end
  | CRemove _ t n => match scoreQ m t with Some _ => [(t, (- n)%Q)] | None => [] end
  | _ => []
  end.
Lemma lrun_app w a b : lrun w (a ++ b) = lrun (lrun w a) b.
Proof. unfold lrun. apply fold_left_app. Qed.
Lemma lrun_entries i os : Forall (adds_to i) os -> forall w,
  lrun w os = lon w i (fun m l => l ++ flat_map (entry_of m) os).
Proof.
  induction 1 as [|o os Ho _ IH]; intros w.
  - cbn [lrun fold_left flat_map]. symmetry. apply lon_id. intros; apply app_nil_r.
  - change (lrun w (o :: os)) with (lrun (lstep w o) os). rewrite IH.
    assert (E : lstep w o = lon w i (fun m l => l ++ entry_of m o)).
    { destruct o as [|j t n|j t n| | |]; cbn [adds_to] in Ho; try contradiction; subst j; cbn [lstep]; unfold lon;
        (destruct (nth_error w i) as [[m l]|]; [|reflexivity]); unfold enter, entry_of;
        (destruct (scoreQ m t); [reflexivity|rewrite app_nil_r; reflexivity]). }
    rewrite E. unfold lon. destruct (nth_error w i) as [[m l]|] eqn:N; [|rewrite N; reflexivity].
    rewrite nth_error_upd, Nat.eqb_refl.
    assert (L : i < List.length w) by (apply nth_error_Some; congruence).
    apply Nat.ltb_lt in L. rewrite L. rewrite upd_upd. cbn [flat_map]. rewrite app_assoc. reflexivity.
Qed.
Lemma flat_map_perm {A B} (f : A -> list B) l r : Permutation l r -> Permutation (flat_map f l) (flat_map f r).
Proof.
  induction 1 as [|x l r P IH|x y l|l r s P1 IH1 P2 IH2]; cbn [flat_map]; auto.
  - apply Permutation_app_head; auto.
  - rewrite !app_assoc. apply Permutation_app_tail, Permutation_app_comm.
  - eapply Permutation_trans; eauto.
Qed.
Definition efforts_eq (w w' : @cworld Qnum) : Prop := Forall2 (fun o o' : @inst Qnum => (effort o == effort o')%Q) (insts w) (insts w').
Lemma efforts_of os os' :
  Forall2 (fun ml ml' : lobj => (mean scoreQ (fst ml) (snd ml) == mean scoreQ (fst ml') (snd ml'))%Q) (lrun [] os) (lrun [] os') ->
  efforts_eq (run os) (run os').
Proof.
  intros F. pose proof (C28_weighted_mean os) as A. pose proof (C28_weighted_mean os') as B. unfold efforts_eq.
  revert B. generalize (insts (run os')). revert F. generalize (lrun [] os').
  induction A as [|o ml l ll (_ & _ & _ & E) A IH]; intros lw F l' B.
  - inversion F; subst. inversion B; subst. constructor.
  - inversion F as [|? ml' ? lw' Hm Ft]; subst. inversion B as [|o' ? l0 ? Ho Bt]; subst. constructor.
    + destruct Ho as (_ & _ & _ & E'). rewrite E, E'. exact Hm.
    + eapply IH; eauto.
Qed.
Lemma Forall2_refl_eq {A} (P : A -> A -> Prop) l : (forall x, P x x) -> Forall2 P l l.
Proof. intros R. induction l; constructor; auto. Qed.
(** The order of additions and removals does not matter. *)
Theorem C28_order (os a b : list (@cop Qnum)) i : Forall (adds_to i) a -> Permutation a b ->
  efforts_eq (run (os ++ a)) (run (os ++ b)).
Proof.
  intros Fa P. assert (Fb : Forall (adds_to i) b) by (eapply Permutation_Forall; eauto).
  apply efforts_of. rewrite !lrun_app, (lrun_entries i a Fa), (lrun_entries i b Fb).
  unfold lon. destruct (nth_error (lrun [] os) i) as [[m l]|]; [|apply Forall2_refl_eq; reflexivity].
  apply Forall2_upd; [apply Forall2_refl_eq; reflexivity|]. cbn [fst snd].
  apply mean_perm, Permutation_app_head, flat_map_perm, P.
Qed.
(** Removing what was added, in any order, restores every effort. *)
Definition undo {nm} (o : @cop nm) : @cop nm :=
  match o with CAdd i t n => CRemove i t n | CRemove i t n => CAdd i t n | _ => o end.
Definition is_add {nm} (i : nat) (o : @cop nm) : Prop := match o with CAdd j _ _ => j = i | _ => False end.
Theorem C28_remove_restores (os a u : list (@cop Qnum)) i : Forall (is_add i) a -> Permutation (map undo a) u ->
  efforts_eq (run (os ++ a ++ u)) (run os).
Proof.
  intros Fa P.
  assert (Ga : Forall (adds_to i) a) by (eapply Forall_impl; [|exact Fa]; intros []; cbn; tauto).
  assert (Gm : Forall (adds_to i) (map undo a))
    by (apply Forall_map; eapply Forall_impl; [|exact Fa]; intros []; cbn; tauto).
  assert (Gu : Forall (adds_to i) u) by (eapply Permutation_Forall; eauto).
  apply efforts_of. rewrite lrun_app, (lrun_entries i (a ++ u)) by (apply Forall_app; auto).
  unfold lon. destruct (nth_error (lrun [] os) i) as [[m l]|] eqn:N; [|apply Forall2_refl_eq; reflexivity].
  rewrite <- (@upd_same _ (lrun [] os) i (m, l)) at 2 by exact N.
  apply Forall2_upd; [apply Forall2_refl_eq; reflexivity|]. cbn [fst snd].
  rewrite flat_map_app. apply mean_cancel.
  eapply Permutation_trans; [|apply flat_map_perm, P].
  clear -Fa. induction Fa as [|o a Ho _ IH]; [constructor|].
  destruct o as [|j t n| | | |]; cbn [is_add] in Ho; try contradiction.
  cbn [flat_map map undo entry_of]. destruct (scoreQ m t); [|exact IH]. cbn [app negate map fst snd]. constructor. exact IH.
Qed.
(** A mean lies between the extremes. *)
Theorem C28_bounds (os : list (@cop Qnum)) i o m l lo hi :
  nth_error (insts (run os)) i = Some o -> nth_error (lrun [] os) i = Some (m, l) ->
  (forall t n, In (t, n) l -> (0 <= n)%Q /\ forall e, triadCompute m t = Ok e -> (lo <= e <= hi)%Q) ->
  ~ (icount o == 0)%Q -> (lo <= effort o <= hi)%Q.
Proof.
  intros No Nl A Z. pose proof (C28_weighted_mean os) as F.
  apply (@Forall2_nth_error _ _ _ _ _ i) in F. rewrite No, Nl in F. destruct F as (_ & C & _ & E). cbn [fst snd] in *.
  rewrite E. apply mean_bounds; [|rewrite <- C; exact Z].
  intros t n I. destruct (A t n I) as [N B]. split; [exact N|].
  assert (Sc : exists e, triadCompute m t = Ok e).
  { assert (Inv : forall os w, (forall j m l t n, nth_error w j = Some (m, l) -> In (t, n) l -> exists e, triadCompute m t = Ok e) ->
      forall j m l t n, nth_error (lrun w os) j = Some (m, l) -> In (t, n) l -> exists e, triadCompute m t = Ok e).
    { clear. induction os as [|o os IH]; intros w Hw; [exact Hw|]. change (lrun w (o :: os)) with (lrun (lstep w o) os).
      apply IH. clear IH.
      assert (Hon : forall i f, (forall m l t n, (forall t n, In (t, n) l -> exists e, triadCompute m t = Ok e) ->
          In (t, n) (f m l) -> exists e, triadCompute m t = Ok e) ->
        forall j m l t n, nth_error (lon w i f) j = Some (m, l) -> In (t, n) l -> exists e, triadCompute m t = Ok e).
      { intros i f Hf j m l t n. unfold lon. destruct (nth_error w i) as [[m0 l0]|] eqn:N; [|apply Hw].
        rewrite nth_error_upd. destruct (Nat.eqb_spec j i) as [->|]; [|apply Hw].
        destruct (Nat.ltb _ _); [|discriminate]. intros E I. injection E as <- <-. eapply Hf; [|exact I].
        intros t' n' I'. eapply Hw; eauto. }
      assert (Hsnoc : forall ml, (forall t n, In (t, n) (snd ml) -> exists e, triadCompute (fst ml) t = Ok e) ->
        forall j m l t n, nth_error (w ++ [ml]) j = Some (m, l) -> In (t, n) l -> exists e, triadCompute m t = Ok e).
      { intros ml Hml j m l t n E I. destruct (Nat.lt_ge_cases j (List.length w)) as [L|L].
        - rewrite nth_error_app1 in E by exact L. eapply Hw; eauto.
        - rewrite nth_error_app2 in E by exact L. destruct (j - List.length w) as [|k]; cbn in E; [|destruct k; discriminate].
          injection E as ->. eapply Hml; eauto. }
      assert (Hent : forall m l t0 n0 t n, (forall t n, In (t, n) l -> exists e, triadCompute m t = Ok e) ->
        In (t, n) (enter scoreQ m l t0 n0) -> exists e, triadCompute m t = Ok e).
      { intros m l t0 n0 t n Hl. unfold enter, scoreQ. destruct (triadCompute m t0) as [e|] eqn:E; [|apply Hl].
        rewrite in_app_iff. intros [I|[I|[]]]; [eauto|]. injection I as <- <-. eauto. }
      destruct o as [m0|i t0 n0|i t0 n0|i ts|i|i]; cbn [lstep].
      - destruct (is_ok (initCheck m0)); [|apply Hw]. apply Hsnoc. intros ? ? [].
      - apply Hon. intros; eapply Hent; eauto.
      - apply Hon. intros; eapply Hent; eauto.
      - apply Hon. intros m l t n Hl. revert l Hl. induction ts as [|[t1 n1] ts IH]; intros l Hl; cbn [enter_many]; [apply Hl|].
        destruct (scoreQ m t1) eqn:E; [|apply Hl]. apply IH. intros t' n' I. apply in_app_or in I. destruct I as [I|[I|[]]]; [eauto|].
        injection I as <- <-. unfold scoreQ in E. destruct (triadCompute m t1); [eauto|discriminate].
      - apply Hon. intros ? ? ? ? _ [].
      - destruct (nth_error w i) as [[m0 l0]|] eqn:N; [|apply Hw].
        destruct (is_ok (initCheck m0)); [|apply Hw]. apply Hsnoc. cbn [fst snd]. intros t n I. eapply Hw; eauto. }
    eapply (Inv os []); [|exact Nl|exact I]. intros [|j]; discriminate. }
  destruct Sc as [e Ee]. unfold cost, scoreQ. rewrite Ee. apply B, Ee.
Qed.
Example C28_example :
  let os : list (@cop Qnum) := [CNew mQ; CAdd 0 tA (3%Q : Qnum); CAddMany 0 [(tB, 2%Q : Qnum)]; CCopy 0; CReset 1; CRemove 0 tA (1%Q : Qnum)] in
  map (fun o : @inst Qnum => (Qred (icount o), Qred (effort o))) (insts (run os)) = [(4, 83987535171030647319 # 15625000000000000000); (0, 0)]%Q /\
  map snd (lrun [] os) = [[(tA, 3); (tB, 2); (tA, -(1))]; []]%Q.
Proof. split; vm_compute; reflexivity. Qed.
(** With binary64 numbers, as in Python, the value is only restored up to rounding. *)
Theorem C28_needs_exact : exists (os a : list (@cop Fnum)), Forall (is_add 0) a /\
  map effort (insts (run (os ++ a ++ map undo a))) <> map effort (insts (run os)).
Proof.
  exists [CNew mF; CAdd 0 tA (nofZ 1)], [CAdd 0 tB (nofZ 3)].
  split; [repeat constructor|]. vm_compute. congruence.
Qed.

(** * C29 *)
(** Every history has the outcomes and leaves the objects it would have and
    leave without any cache, in every number format. *)
Theorem C29_cache_transparent {nm : num} (os : list (@cop nm)) :
  rrun [] os = (map (fun o => mkR (imodel o) (iabs o) (icount o)) (insts (run os)), snd (crun cempty os)).
Proof.
  pose proof (@crun_sim nm os cempty cempty_ok) as S. unfold run. destruct (crun cempty os) as [w rs]. apply S.
Qed.
(** Whatever happened before, asking any object for any triad's effort gives the
    value computed from scratch. *)
Theorem C29_lookup {nm : num} (os : list (@cop nm)) o t : In o (insts (run os)) ->
  snd (triadEffort (run os) o t) = triadCompute (imodel o) t.
Proof.
  intros I. pose proof (@crun_sim nm os cempty cempty_ok) as S. unfold run in *. destruct (crun cempty os) as [w rs].
  cbn [fst] in *. destruct S as [C _]. pose proof (triadEffort_ok w o t C I) as T. destruct (triadEffort w o t). apply T.
Qed.
(** Operations on one object change no other object's fields. *)
Definition target {nm} (o : @cop nm) : option nat :=
  match o with CNew _ | CCopy _ => None | CAdd i _ _ | CRemove i _ _ | CAddMany i _ | CReset i => Some i end.
Lemma account_other {nm} f (w : @cworld nm) i t n j : j <> i ->
  nth_error (insts (fst (account f w i t n))) j = nth_error (insts w) j.
Proof.
  intros D. unfold account. destruct (nth_error (insts w) i) as [o|]; [|reflexivity].
  unfold triadEffort. destruct (dget (cacheOf w (icache o)) t); [|destruct (triadCompute (imodel o) t)]; cbn [fst insts setInst]; try reflexivity.
  all: rewrite nth_error_upd; destruct (Nat.eqb_spec j i); congruence.
Qed.
Theorem C29_isolated {nm : num} (w : @cworld nm) o j : target o <> Some j -> j < List.length (insts w) ->
  nth_error (insts (fst (cstep w o))) j = nth_error (insts w) j.
Proof.
  intros D L. destruct o as [m|i t n|i t n|i ts|i|i]; cbn [cstep target] in *.
  - unfold create. destruct (initCheck m); [|reflexivity]. cbn [fst insts]. apply nth_error_app1, L.
  - apply account_other. congruence.
  - apply account_other. congruence.
  - assert (Dj : j <> i) by congruence. clear D. revert w L. induction ts as [|[t n] ts IH]; intros w L; [reflexivity|].
    cbn [addTriads]. unfold addTriad. pose proof (account_other nadd w i t n j Dj) as E.
    destruct (account nadd w i t n) as [w1 [u|e]]; cbn [fst] in *; [|exact E]. rewrite IH; [exact E|].
    apply nth_error_Some. rewrite E. apply nth_error_Some, L.
  - unfold reset. destruct (nth_error (insts w) i); [|reflexivity]. cbn [fst insts setInst]. rewrite nth_error_upd.
    destruct (Nat.eqb_spec j i); congruence.
  - unfold copy. destruct (nth_error (insts w) i) as [o|]; [|reflexivity].
    destruct (initCheck (imodel o)); [|reflexivity]. cbn [fst insts]. apply nth_error_app1, L.
Qed.
(** A copy starts with its original's fields, and shares its cache. *)
Theorem C29_copy {nm : num} (os : list (@cop nm)) i o : nth_error (insts (run os)) i = Some o ->
  initCheck (imodel o) = Ok tt -> exists c,
    insts (fst (cstep (run os) (CCopy i))) = insts (run os) ++ [c] /\
    imodel c = imodel o /\ iabs c = iabs o /\ icount c = icount o /\ effort c = effort o /\ icache c = icache o.
Proof.
  intros E C. cbn [cstep]. unfold copy. rewrite E, C. eexists. split; [reflexivity|]. repeat split.
Qed.
Example C29_example :
  let w := run [CNew mF; CAdd 0 tA (nofZ 3); CCopy 0; CAdd 1 tB (nofZ 2); CAdd 0 tB (nofZ 1); CNew mF] in
  initCheck mF = Ok tt /\ map icache (insts w) = [0; 0; 1] /\ map (@List.length _) (caches w) = [2; 0] /\
  match insts w with [a; b; c] => effort a <> effort b /\ effort c = nofZ 0 | _ => False end.
Proof. vm_compute. repeat split; congruence. Qed.

(** * C30 *)
Theorem C30_hand h0 h1 h2 v : strokePathHand h0 h1 h2 = v <-> hand_path h0 h1 h2 v.
Proof.
  split; [intros <-; apply hand_path_ok|]. intros P. eapply hand_path_fun; [apply hand_path_ok|exact P].
Qed.
Theorem C30_row r0 r1 r2 v : strokePathRow r0 r1 r2 = Ok v <-> row_path r0 r1 r2 v.
Proof.
  destruct (row_path_ok r0 r1 r2) as (u & E & P). rewrite E. split.
  - intros F; injection F as <-. exact P.
  - intros Q. rewrite (row_path_fun _ _ _ _ _ P Q). reflexivity.
Qed.
Theorem C30_finger g0 g1 g2 i j k x y z v : finger_pos g0 i -> finger_pos g1 j -> finger_pos g2 k ->
  strokePathFinger g0 g1 g2 x y z = Ok v <-> finger_path i j k x y z v.
Proof.
  intros A B C. destruct (finger_path_ok g0 g1 g2 x y z i j k A B C) as (u & E & P). rewrite E. split.
  - intros F; injection F as <-. exact P.
  - intros Q. rewrite (finger_path_fun _ _ _ _ _ _ _ _ P Q). reflexivity.
Qed.
(** Total: no assertion fires and all codes are in range. *)
Theorem C30_total {nm} (m : model nm) x y z :
  (forall b, In b [x; y; z] -> In b (dkeys (mfm m)) /\ In b (dkeys (mrows m))) ->
  exists h r f, strokePath m [x; y; z] = Ok (h, r, f) /\ (0 <= h <= 2)%Z /\ (0 <= r <= 7)%Z /\ (0 <= f <= 7)%Z.
Proof.
  intros K.
  assert (G : forall {V} (d : list (string * V)) b, In b (dkeys d) -> exists v, dget d b = Some v).
  { intros V d b. induction d as [|[k v] d IH]; cbn; [tauto|]. destruct (String.eqb_spec b k) as [->|]; [eauto|].
    intros [->|I]; [congruence|auto]. }
  destruct (K x) as [X1 X2]; [cbn; auto|]. destruct (K y) as [Y1 Y2]; [cbn; auto|]. destruct (K z) as [Z1 Z2]; [cbn; auto|].
  destruct (G _ _ _ X1) as [gx Gx]. destruct (G _ _ _ Y1) as [gy Gy]. destruct (G _ _ _ Z1) as [gz Gz].
  destruct (G _ _ _ X2) as [rx Rx]. destruct (G _ _ _ Y2) as [ry Ry]. destruct (G _ _ _ Z2) as [rz Rz].
  destruct (finger_pos_ex gx) as [i Pi]. destruct (finger_pos_ex gy) as [j Pj]. destruct (finger_pos_ex gz) as [k Pk].
  destruct (strokePath_ok m x y z _ _ _ _ _ _ i j k Gx Gy Gz Rx Ry Rz Pi Pj Pk) as (h & r & f & Es & A & B & C).
  exists h, r, f. split; [exact Es|].
  split; [exact (hand_path_range _ _ _ _ A)|]. split; [exact (row_path_range _ _ _ _ B)|exact (finger_path_range _ _ _ _ _ _ _ C)].
Qed.
Theorem C30_mirror {nm} (m : model nm) t : strokePath (mirrored m) t = strokePath m t.
Proof. apply mirror_strokePath. Qed.
(** The cases of lulua/test_carpalx.py:28-96 *)
Definition component (t : list string) (i : nat) : res Z :=
  res_map (fun hrf => nth i [fst (fst hrf); snd (fst hrf); snd hrf] 0%Z) (strokePath mQ t).
(** An object can only be created for a keyboard whose four letter rows are the
    rows 0 to 3, which the row components rely on. *)
Theorem C30_checked {nm} (m : model nm) :
  (initCheck m = Ok tt <-> forall i b, nth_error ["Bl1"; "Cl1"; "Dl1"; "El1"] i = Some b -> getRow m b = Ok i) /\
  (forall e, initCheck m = Raise e -> e = AssertionError \/ e = KeyError).
Proof.
  unfold initCheck, getRow, dgetM. split.
  - split.
    + destruct (dget (mrows m) "Bl1") as [a|] eqn:Ea; cbn [of_opt bind]; [|discriminate]. destruct (Nat.eqb_spec a 0); cbn [assert_ bind]; [|discriminate].
      destruct (dget (mrows m) "Cl1") as [b|] eqn:Eb; cbn [of_opt bind]; [|discriminate]. destruct (Nat.eqb_spec b 1); cbn [assert_ bind]; [|discriminate].
      destruct (dget (mrows m) "Dl1") as [c|] eqn:Ec; cbn [of_opt bind]; [|discriminate]. destruct (Nat.eqb_spec c 2); cbn [assert_ bind]; [|discriminate].
      destruct (dget (mrows m) "El1") as [d|] eqn:Ed; cbn [of_opt bind]; [|discriminate]. destruct (Nat.eqb_spec d 3); cbn [assert_ bind]; [|discriminate].
      subst. intros _ i x X. do 4 (destruct i as [|i]; [cbn in X; assert (x = _) as -> by (symmetry; injection X; intros Y; exact Y); rewrite ?Ea, ?Eb, ?Ec, ?Ed; reflexivity|]).
      destruct i; discriminate.
    + intros H. rewrite (H 0 "Bl1" eq_refl), (H 1 "Cl1" eq_refl), (H 2 "Dl1" eq_refl), (H 3 "El1" eq_refl). reflexivity.
  - intros e.
    destruct (dget (mrows m) "Bl1") as [a|] eqn:Ea; cbn [of_opt bind]; [|intros X; inversion X; auto]. destruct (Nat.eqb_spec a 0); cbn [assert_ bind]; [|intros X; inversion X; auto].
    destruct (dget (mrows m) "Cl1") as [b|] eqn:Eb; cbn [of_opt bind]; [|intros X; inversion X; auto]. destruct (Nat.eqb_spec b 1); cbn [assert_ bind]; [|intros X; inversion X; auto].
    destruct (dget (mrows m) "Dl1") as [c|] eqn:Ec; cbn [of_opt bind]; [|intros X; inversion X; auto]. destruct (Nat.eqb_spec c 2); cbn [assert_ bind]; [|intros X; inversion X; auto].
    destruct (dget (mrows m) "El1") as [d|] eqn:Ed; cbn [of_opt bind]; [|intros X; inversion X; auto]. destruct (Nat.eqb_spec d 3); cbn [assert_]; intros X; inversion X; auto.
Qed.
Example C30_example : Forall (fun c => component (fst (fst c)) (snd (fst c)) = Ok (snd c)) [
  (["Dl1"; "Dl3"; "Dr7"], 0, 0%Z);
  (["Dl1"; "Dr7"; "Cr7"], 0, 0%Z);
  (["Dr1"; "Dl5"; "Cl1"], 0, 0%Z);
  (["Dl1"; "Dr7"; "Cl1"], 0, 1%Z);
  (["Dr1"; "Bl1"; "Cr1"], 0, 1%Z);
  (["Dr1"; "Br1"; "Cr1"], 0, 2%Z);
  (["Dl1"; "Bl1"; "Cl1"], 0, 2%Z);
  (["Dl1"; "Dl3"; "Dr7"], 1, 0%Z);
  (["Dl3"; "Dl1"; "Er4"], 1, 1%Z);
  (["Cl3"; "Dl1"; "Dr4"], 1, 1%Z);
  (["Cl1"; "Cl2"; "El1"], 1, 1%Z);
  (["Dl1"; "Dl1"; "Cr5"], 1, 2%Z);
  (["El1"; "El1"; "Cr5"], 1, 2%Z);
  (["El6"; "Dl1"; "Er4"], 1, 3%Z);
  (["Cl3"; "Dl3"; "Er4"], 1, 4%Z);
  (["Bl3"; "Dl3"; "Er4"], 1, 4%Z);
  (["Dl1"; "Cl3"; "El6"], 1, 5%Z);
  (["Dr7"; "Cl3"; "Er5"], 1, 5%Z);
  (["Bl1"; "Dl3"; "Bl1"], 1, 5%Z);
  (["El6"; "Dl3"; "Cl1"], 1, 6%Z);
  (["El6"; "Cl3"; "Bl1"], 1, 6%Z);
  (["Dl1"; "El6"; "Cr6"], 1, 7%Z);
  (["Dl1"; "El3"; "Cl3"], 1, 7%Z);
  (["Dl1"; "Dl2"; "Dl3"], 2, 0%Z);
  (["Cr3"; "Cr6"; "Dl1"], 2, 0%Z);
  (["Dl1"; "Dl1"; "Dl3"], 2, 1%Z);
  (["Dl1"; "Dl2"; "Dl2"], 2, 1%Z);
  (["Cr3"; "Cr4"; "Cr4"], 2, 1%Z);
  (["Er4"; "Er4"; "Cl1"], 2, 1%Z);
  (["El6"; "Cr5"; "Dr7"], 2, 2%Z);
  (["Dl4"; "Dl1"; "Dl3"], 2, 2%Z);
  (["Cr7"; "Dl1"; "Dr5"], 2, 3%Z);
  (["Er5"; "Cl3"; "Cr3"], 2, 3%Z);
  (["Dr5"; "Cl4"; "Cr5"], 2, 4%Z);
  (["Er4"; "Dl1"; "Dr6"], 2, 4%Z);
  (["Dl1"; "El6"; "El2"], 2, 4%Z);
  (["Dl1"; "Dl2"; "Dl1"], 2, 4%Z);
  (["Dl1"; "Dl3"; "Dl1"], 2, 4%Z);
  (["El4"; "Cl3"; "Cl3"], 2, 5%Z);
  (["Dr4"; "Dr4"; "Cr4"], 2, 5%Z);
  (["El6"; "Cl4"; "El6"], 2, 5%Z);
  (["Dl1"; "El6"; "Cl4"], 2, 6%Z);
  (["El6"; "Dl3"; "Cl3"], 2, 6%Z);
  (["El6"; "El5"; "El2"], 2, 6%Z);
  (["Cl5"; "Dl4"; "El6"], 2, 7%Z);
  (["Dl3"; "Cl3"; "El4"], 2, 7%Z)].
Proof. repeat apply Forall_cons; try apply Forall_nil; reflexivity. Qed.

(** * C31 *)
Theorem C31_formula m c0 c1 c2 e : iterates m -> triadCompute m [c0; c1; c2] = Ok e ->
  triad_formula m c0 c1 c2 e /\ forall e', triad_formula m c0 c1 c2 e' -> (e' == e)%Q.
Proof.
  intros It E. pose proof (triadCompute_inv m It _ _ _ _ E) as K.
  destruct (triadCompute_ok m It _ _ _ K) as (e1 & E1 & F). rewrite E in E1. injection E1 as <-.
  split; [exact F|]. intros e' F'. eapply triad_formula_fun; eauto.
Qed.
(** It is defined exactly for combinations that press something, with only
    buttons the model knows all about. *)
Theorem C31_defined m c0 c1 c2 : iterates m ->
  (exists e, triadCompute m [c0; c1; c2] = Ok e) <->
  (forall c, In c [c0; c1; c2] -> (exists b, pressed c b) /\ forall b, pressed c b -> known m b).
Proof.
  intros It. split.
  - intros [e E]. exact (triadCompute_inv m It _ _ _ _ E).
  - intros K. destruct (triadCompute_ok m It _ _ _ K) as (e & E & _). eauto.
Qed.
(** The unspecified iteration order of combinations is irrelevant. *)
Theorem C31_iteration_order p fm rows it it' c0 c1 c2 e :
  iterates (mkModel Qnum p fm rows it) -> iterates (mkModel Qnum p fm rows it') ->
  triadCompute (mkModel Qnum p fm rows it) [c0; c1; c2] = Ok e ->
  exists e', triadCompute (mkModel Qnum p fm rows it') [c0; c1; c2] = Ok e' /\ (e' == e)%Q.
Proof.
  intros I I' E. destruct (C31_formula _ _ _ _ _ I E) as [_ U].
  destruct (proj2 (C31_defined _ c0 c1 c2 I') (proj1 (C31_defined _ c0 c1 c2 I) (ex_intro _ e E))) as [e' E'].
  exists e'. split; [exact E'|]. apply U. apply (C31_formula _ _ _ _ _ I' E').
Qed.
Lemma shipped_nonneg p : In p [@mod01 Qnum; @salvo Qnum] -> params_nonneg p.
Proof.
  assert (B : forall l : list Q, forallb (fun x => Qle_bool 0 x) l = true -> forall x, In x l -> (0 <= x)%Q).
  { intros l F x I. rewrite forallb_forall in F. apply Qle_bool_iff, F, I. }
  intros [<-|[<-|[]]]; unfold params_nonneg; (split; [apply B; vm_compute; reflexivity|]);
    (split; [apply B; vm_compute; reflexivity|]); (split; [apply B; vm_compute; reflexivity|]);
    (split; [|apply B; vm_compute; reflexivity]).
  all: intros h f x [I|[I|[]]]; injection I as <- <-; revert x; apply B; vm_compute; reflexivity.
Qed.
Theorem C31_nonneg p fm rows it c0 c1 c2 e : In p [@mod01 Qnum; @salvo Qnum] ->
  iterates (mkModel Qnum p fm rows it) ->
  triadCompute (mkModel Qnum p fm rows it) [c0; c1; c2] = Ok e -> (0 <= e)%Q.
Proof. intros Ip It. apply triad_nonneg; [exact It|apply shipped_nonneg, Ip]. Qed.
(** A failing call leaves every object and every cache as it was. *)
Theorem C31_failure {nm : num} (w : @cworld nm) o e :
  match o with CAddMany _ _ => False | _ => True end ->
  snd (cstep w o) = Raise e -> fst (cstep w o) = w.
Proof.
  assert (A : forall f i t n, snd (account f w i t n) = Raise e -> fst (account f w i t n) = w).
  { intros f i t n. unfold account. destruct (nth_error (insts w) i) as [ob|]; [|reflexivity].
    unfold triadEffort. destruct (dget (cacheOf w (icache ob)) t); [discriminate|].
    destruct (triadCompute (imodel ob) t); cbn; [discriminate|reflexivity]. }
  destruct o as [m|i t n|i t n|i ts|i|i]; cbn [cstep]; intros N; try (apply A); try contradiction.
  - unfold create. destruct (initCheck m); [discriminate|reflexivity].
  - unfold reset. destruct (nth_error (insts w) i); [discriminate|reflexivity].
  - unfold copy. destruct (nth_error (insts w) i) as [ob|]; [|reflexivity]. destruct (initCheck (imodel ob)); [discriminate|reflexivity].
Qed.
(** addTriads instead keeps the entries before the failing one. *)
Theorem C31_failure_many {nm : num} (w : @cworld nm) i ts e : snd (addTriads w i ts) = Raise e ->
  exists done t n rest, ts = done ++ (t, n) :: rest /\
    addTriads w i done = (fst (addTriads w i ts), Ok tt) /\
    addTriad (fst (addTriads w i ts)) i t n = (fst (addTriads w i ts), Raise e).
Proof.
  revert w. induction ts as [|[t n] ts IH]; intros w; cbn [addTriads]; [discriminate|].
  destruct (addTriad w i t n) as [w1 [u|e1]] eqn:A.
  - intros E. destruct (IH w1 E) as (done & t' & n' & rest & -> & B & C).
    exists ((t, n) :: done), t', n', rest. split; [reflexivity|]. cbn [addTriads]. rewrite A. auto.
  - cbn [snd fst]. intros E. injection E as ->. exists [], t, n, ts. split; [reflexivity|].
    pose proof (@C31_failure nm w (CAdd i t n) e Logic.I) as F. cbn [cstep] in F. rewrite A in F.
    specialize (F eq_refl). cbn [fst] in F. subst w1. split; [reflexivity|exact A].
Qed.
Lemma mQ_iterates : iterates mQ.
Proof. intros c. apply Permutation_refl. Qed.
Example C31_example : (exists e, triadCompute mQ tB = Ok e /\ (e == 701976342 # 100000000)%Q) /\
  snd (cstep (run [CNew mQ]) (CAdd 0 [key "Dl1"; key "Br_bs"; key "Dl1"] (1%Q : Qnum))) = Raise KeyError.
Proof. split; [eexists; split; vm_compute; reflexivity|reflexivity]. Qed.

(** * C32 *)
(** Whatever is typed with a shipped layout, every recorded triad can be scored
    by both models in every number format, provided the text has no U+0008. *)
Theorem C32_scorable_partial {nm : num} d letter last t it : In d all_layouts -> ~ In 8%N t ->
  (forall c, Permutation (it c) (elems (cmod c) ++ elems (cbtn c))) ->
  let L := layout_new (shipped_layers d) in
  let es := map ev_obj (fst (fst (type_text defaultFingermap L last t))) in
  exists s0 s, makeCombined kb_names = Ok s0 /\ foldM (stats_process defaultFingermap letter L) es s0 = Ok s /\
    forall tr p, In tr (dkeys (t_triads (a_triads s))) -> In p [@mod01 nm; @salvo nm] ->
      exists e, triadCompute (shipped_model p it) tr = Ok e.
Proof.
  intros Hd Hbs Hit. cbn zeta. destruct (shipped_facts _ Hd) as (A & B & C & D).
  destruct (@stats_all defaultFingermap letter (layout_new (shipped_layers d)) kb_names
    (map ev_obj (fst (fst (type_text defaultFingermap (layout_new (shipped_layers d)) last t))))) as (s0 & s & E0 & E & R).
  { apply inclb_ok. vm_compute. reflexivity. }
  { apply typed_handled; auto. intros b Hb. apply kb_fingered, D, Hb. }
  exists s0, s. split; [exact E0|]. split; [exact E|]. intros tr p Htr Hp.
  specialize (R (CTriad tr)). cbn [recorded expected] in R.
  assert (Some_tr : exists n, dget (t_triads (a_triads s)) tr = Some n).
  { clear -Htr. induction (t_triads (a_triads s)) as [|[k v] l IH]; [destruct Htr|].
    cbn [dget]. destruct (eqb_spec tr k) as [|G]; [eauto|]. destruct Htr as [Hk|H]; [exfalso; apply G; symmetry; exact Hk|auto]. }
  destruct Some_tr as [n En]. rewrite En in R. unfold nonzero in R.
  destruct (Z.eqb_spec (per_stretch (fun s => windows (filter (counted spaces) s))
     (map ev_obj (fst (fst (type_text defaultFingermap (layout_new (shipped_layers d)) last t)))) tr) 0) as [Z|Z]; [discriminate|].
  apply sumZ_count_pos in Z. destruct Z as (st & Hst & Hw). apply windows_3 in Hw.
  destruct Hw as (c0 & c1 & c2 & -> & I0 & I1 & I2).
  assert (K : forall c, In c (filter (counted spaces) st) ->
    it c <> [] /\ forall b, In b (it c) -> In b priced_names).
  { intros c I. apply filter_In in I. destruct I as [I Cn].
    pose proof (stretches_in _ _ _ Hst I) as Ev. apply typed_events in Ev; [|exact Hd].
    destruct Ev as (l & b & md & v & Hl & Hb & Hm & -> & Hv).
    pose proof (shipped_priced d Hd l Hl) as P. unfold layer_priced in P. apply andb_true_iff in P. destruct P as [P1 P2].
    rewrite forallb_forall in P1, P2. specialize (P1 md Hm). apply inclb_ok in P1. specialize (P2 _ Hb). cbn [fst snd] in P2.
    assert (Eb : elems (frozenset [b]) = [b]) by reflexivity.
    unfold counted in Cn. cbn [cbtn] in Cn. rewrite Eb in Cn. apply negb_true_iff in Cn.
    rewrite Cn, orb_false_r in P2. apply orb_true_iff in P2.
    assert (Pb : In b priced_names).
    { destruct P2 as [P2|P2]; [apply mem_In, P2|]. exfalso. apply Hbs, Hv, mem_In, P2. }
    specialize (Hit (mkComb md (frozenset [b]))). cbn [cmod cbtn] in Hit. rewrite Eb in Hit. split.
    - intros Ei. rewrite Ei in Hit. apply Permutation_nil in Hit. destruct (elems md); discriminate.
    - intros x Hx. apply (Permutation_in _ Hit) in Hx. apply in_app_or in Hx. destruct Hx as [Hx|[<-|[]]]; [apply P1, Hx|exact Pb]. }
  apply triad_defined. intros c I.
  assert (Ic : In c (filter (counted spaces) st)) by (destruct I as [<-|[<-|[<-|[]]]]; assumption).
  destruct (K c Ic) as [N Kb]. split; [exact N|]. intros b Hb. specialize (Kb b Hb).
  destruct (@priced_names_ok nm it b Kb) as [X Y]. destruct Hp as [<-|[<-|[]]]; assumption.
Qed.
(** Backspace is typed by three layouts, is counted, and has no effort. *)
Theorem C32_scorable_refuted : exists d t s0 s tr, In d all_layouts /\
  makeCombined kb_names = Ok s0 /\
  foldM (stats_process defaultFingermap (fun _ => false) (layout_new (shipped_layers d)))
    (map ev_obj (fst (fst (type_text defaultFingermap (layout_new (shipped_layers d)) None t)))) s0 = Ok s /\
  In tr (dkeys (t_triads (a_triads s))) /\
  forall p, In p [@mod01 Fnum; @salvo Fnum] -> triadCompute (shipped_model p comb_iter) tr = Raise KeyError.
Proof.
  exists data_ar_lulua, [8; 8; 8]%N. eexists _, _, [key "Br_bs"; key "Br_bs"; key "Br_bs"].
  split; [unfold all_layouts; cbn; tauto|]. split; [vm_compute; reflexivity|]. split; [vm_compute; reflexivity|].
  split; [vm_compute; auto|]. intros p [<-|[<-|[]]]; vm_compute; reflexivity.
Qed.
Example C32_example : match makeCombined kb_names with
  | Ok s0 => match foldM (stats_process defaultFingermap (fun _ => true) (layout_new (shipped_layers data_ar_lulua)))
      (map ev_obj (fst (fst (type_text defaultFingermap (layout_new (shipped_layers data_ar_lulua)) None [1605; 1585; 1581; 1576; 1575]%N)))) s0 with
    | Ok s => List.length (t_triads (a_triads s)) = 3 | _ => False end
  | _ => False end.
Proof. vm_compute. reflexivity. Qed.
Print Assumptions C28_weighted_mean.
Print Assumptions C28_order.
Print Assumptions C28_remove_restores.
Print Assumptions C28_bounds.
Print Assumptions C28_needs_exact.
Print Assumptions C29_cache_transparent.
Print Assumptions C29_lookup.
Print Assumptions C29_isolated.
Print Assumptions C29_copy.
Print Assumptions C30_hand.
Print Assumptions C30_row.
Print Assumptions C30_finger.
Print Assumptions C30_checked.
Print Assumptions C30_total.
Print Assumptions C30_mirror.
Print Assumptions C31_formula.
Print Assumptions C31_defined.
Print Assumptions C31_iteration_order.
Print Assumptions C31_nonneg.
Print Assumptions C31_failure.
Print Assumptions C31_failure_many.
Print Assumptions C32_scorable_partial.
Print Assumptions C32_scorable_refuted.
