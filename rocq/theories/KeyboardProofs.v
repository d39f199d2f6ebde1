From Coq Require Import QArith.
From Verif Require Import Base KeyboardModel KeyboardSpec.
Close Scope Q_scope.
Set Implicit Arguments.
Open Scope list_scope.

Arguments reload1 : simpl never.
Arguments button_deserialize : simpl never.
Arguments button_serialize : simpl never.

(** * Registry invariant *)
Definition RegInv (r : registry) (ns : list string) : Prop :=
  NoDup ns /\ nextNameId r = N.of_nat (List.length ns) /\
  (forall i n, dget (idToName r) i = Some n <-> nth_error ns (N.to_nat i) = Some n) /\
  (forall n i, dget (nameToId r) n = Some i <-> nth_error ns (N.to_nat i) = Some n).

Lemma RegInv0 : RegInv reg0 [].
Proof.
  repeat split; try constructor; cbn; try discriminate; intros E; destruct (N.to_nat i); discriminate.
Qed.

Lemma nth_error_In_iff {A} (l : list A) x : In x l <-> exists i, nth_error l (N.to_nat i) = Some x.
Proof.
  split.
  - intros Hi. apply In_nth_error in Hi as [n Hn]. exists (N.of_nat n). rewrite Nat2N.id. exact Hn.
  - intros [i Hi]. eapply nth_error_In, Hi.
Qed.

Lemma nth_error_snoc {A} (l : list A) x i :
  nth_error (l ++ [x]) i = if Nat.eqb i (List.length l) then Some x else nth_error l i.
Proof.
  destruct (Nat.eqb_spec i (List.length l)) as [->|Hn].
  - rewrite nth_error_app2, Nat.sub_diag by lia. reflexivity.
  - destruct (le_lt_dec (List.length l) i).
    + rewrite nth_error_app2 by lia. rewrite (proj2 (nth_error_None l i)) by lia.
      apply nth_error_None. cbn. lia.
    + apply nth_error_app1; lia.
Qed.

Lemma NoDup_snoc {A} (l : list A) x : NoDup l -> ~ In x l -> NoDup (l ++ [x]).
Proof.
  intros Hl Hx. apply Permutation_NoDup with (l := x :: l); [apply Permutation_cons_append|].
  constructor; assumption.
Qed.

Lemma intern_inv r ns n : RegInv r ns ->
  let ns' := if mem n ns then ns else ns ++ [n] in
  RegInv (snd (intern r n)) ns' /\ nth_error ns' (N.to_nat (fst (intern r n))) = Some n.
Proof.
  intros (Hnd & Hnext & Hid & Hname). unfold intern.
  destruct (dget (nameToId r) n) as [i|] eqn:E; cbn.
  - pose proof (proj1 (Hname _ _) E) as Hi.
    assert (Hm : mem n ns = true) by (apply mem_In; eapply nth_error_In, Hi).
    rewrite Hm. repeat split; auto; try apply Hid; try apply Hname.
  - assert (Hni : ~ In n ns).
    { intros Hi. apply nth_error_In_iff in Hi as [i Hi]. apply Hname in Hi. congruence. }
    assert (Hm : mem n ns = false) by (apply mem_nIn; exact Hni). rewrite Hm.
    split.
    + split; [apply NoDup_snoc; assumption|]. cbn.
      split; [rewrite app_length; cbn; lia|]. split.
      * intros i m. rewrite dget_dset, nth_error_snoc.
        destruct (eqb_spec i (nextNameId r)) as [->|Hi].
        -- rewrite Hnext, Nat2N.id, Nat.eqb_refl. split; intros X; inversion X; reflexivity.
        -- destruct (Nat.eqb_spec (N.to_nat i) (List.length ns)); [exfalso; apply Hi; rewrite Hnext; lia|apply Hid].
      * intros m i. rewrite dget_dset, nth_error_snoc.
        destruct (eqb_spec m n) as [->|Hmn].
        -- destruct (Nat.eqb_spec (N.to_nat i) (List.length ns)) as [Ei|Ei].
           ++ split; [reflexivity|]. intros _. f_equal. lia.
           ++ split.
              ** intros X; inversion X; subst. exfalso; apply Ei. lia.
              ** intros X. apply Hname in X. congruence.
        -- rewrite Hname. destruct (Nat.eqb_spec (N.to_nat i) (List.length ns)) as [Ei|Ei].
           ++ rewrite Ei, (proj2 (nth_error_None ns (List.length ns))) by lia. split; [discriminate|congruence].
           ++ reflexivity.
    + rewrite nth_error_snoc, Hnext, Nat2N.id, Nat.eqb_refl. reflexivity.
Qed.

Lemma firsts_extends seen ns : exists l, firsts seen ns = seen ++ l.
Proof.
  revert seen; induction ns as [|n ns IH]; intros seen; cbn; [exists []; now rewrite app_nil_r|].
  destruct (mem n seen); [apply IH|]. destruct (IH (seen ++ [n])) as [l ->].
  exists (n :: l). rewrite <- app_assoc. reflexivity.
Qed.

Lemma nth_error_firsts seen ns i n : nth_error seen i = Some n -> nth_error (firsts seen ns) i = Some n.
Proof.
  intros E. destruct (firsts_extends seen ns) as [l ->]. rewrite nth_error_app1; [exact E|].
  apply nth_error_Some. congruence.
Qed.

Lemma create_inv r seen ns : RegInv r seen ->
  RegInv (snd (create r ns)) (firsts seen ns) /\
  Forall2 (fun n i => nth_error (firsts seen ns) (N.to_nat i) = Some n) ns (fst (create r ns)).
Proof.
  revert r seen; induction ns as [|n ns IH]; intros r seen Hr; cbn [create firsts].
  - split; [exact Hr|constructor].
  - destruct (intern_inv n Hr) as [Hi Hn].
    destruct (intern r n) as [i r1]; cbn in Hi, Hn.
    destruct (IH _ _ Hi) as [H1 H2]. destruct (create r1 ns) as [is r2]; cbn in *.
    destruct (mem n seen); (split; [exact H1|]; constructor; [|exact H2]); apply nth_error_firsts, Hn.
Qed.

Lemma create_app r a b : create r (a ++ b) =
  (fst (create r a) ++ fst (create (snd (create r a)) b), snd (create (snd (create r a)) b)).
Proof.
  revert r; induction a as [|n a IH]; intros r; cbn.
  - destruct (create r b); reflexivity.
  - destruct (intern r n) as [i r1]. rewrite IH. destruct (create r1 a) as [is r2]; cbn. reflexivity.
Qed.

Lemma create_length r ns : List.length (fst (create r ns)) = List.length ns.
Proof.
  revert r; induction ns as [|n ns IH]; intros r; cbn; [reflexivity|].
  destruct (intern r n) as [i r1]. specialize (IH r1). destruct (create r1 ns). cbn in *. lia.
Qed.

Lemma Forall2_nth_error {A B} (R : A -> B -> Prop) l m i x y :
  Forall2 R l m -> nth_error l i = Some x -> nth_error m i = Some y -> R x y.
Proof.
  intros F; revert i; induction F; intros [|i]; cbn; try discriminate; eauto.
  intros E1 E2; inversion E1; inversion E2; subst; assumption.
Qed.

Lemma name_of_inv r ns i n : RegInv r ns -> (name_of r i = Ok n <-> nth_error ns (N.to_nat i) = Some n).
Proof.
  intros (_ & _ & Hid & _). unfold name_of, dgetM. rewrite <- Hid.
  destruct (dget (idToName r) i); cbn; split; congruence.
Qed.

Theorem button_identity (names : list string) (i j : nat) (ni nj : string) (bi bj : N) :
  nth_error names i = Some ni -> nth_error names j = Some nj ->
  nth_error (fst (create reg0 names)) i = Some bi -> nth_error (fst (create reg0 names)) j = Some bj ->
  (bi = bj <-> ni = nj) /\ name_of (snd (create reg0 names)) bi = Ok ni.
Proof.
  intros Hni Hnj Hbi Hbj.
  destruct (create_inv names RegInv0) as [HI HF].
  pose proof (Forall2_nth_error _ HF Hni Hbi) as Pi.
  pose proof (Forall2_nth_error _ HF Hnj Hbj) as Pj. cbn in Pi, Pj.
  split; [|eapply name_of_inv; eauto].
  split; [intros ->; congruence|]. intros ->.
  destruct HI as (Hnd & _). rewrite NoDup_nth_error in Hnd.
  apply N2Nat.inj. apply Hnd; [apply nth_error_Some; congruence|congruence].
Qed.

(** * Pickling *)
Lemma firsts_NoDup names : NoDup (distinct names).
Proof. destruct (create_inv names RegInv0) as [(H & _) _]. exact H. Qed.
Lemma firsts_In seen names x : In x (firsts seen names) <-> In x seen \/ In x names.
Proof.
  revert seen; induction names as [|n ns IH]; intros seen; cbn; [tauto|].
  destruct (mem n seen) eqn:E; rewrite IH.
  - apply mem_In in E. intuition congruence.
  - rewrite in_app_iff; cbn. intuition.
Qed.

Lemma intern_registered r ns n i : RegInv r ns -> nth_error ns (N.to_nat i) = Some n -> intern r n = (i, r).
Proof.
  intros (_ & _ & _ & Hname) E. apply Hname in E. unfold intern. rewrite E. reflexivity.
Qed.

(** Every button known to process A keeps its name in process B iff A's
    sequence of distinct names is a prefix of B's. *)
Theorem pickling_iff (a b : list string) :
  (forall n i, In n a -> fst (intern (snd (create reg0 a)) n) = i -> name_of (snd (create reg0 b)) i = Ok n)
  <-> exists c, distinct b = distinct a ++ c.
Proof.
  destruct (create_inv a RegInv0) as [HA _]. destruct (create_inv b RegInv0) as [HB _].
  fold (distinct a) in HA. fold (distinct b) in HB. split.
  - intros H.
    assert (Hn : forall k n, nth_error (distinct a) k = Some n -> nth_error (distinct b) k = Some n).
    { intros k n E. rewrite <- (Nat2N.id k) in E. pose proof (intern_registered _ HA E) as Ei.
      assert (In n a) as Hin.
      { apply nth_error_In in E. apply firsts_In in E as [[]|E]; exact E. }
      specialize (H n (N.of_nat k) Hin). rewrite Ei in H. specialize (H eq_refl).
      rewrite (name_of_inv _ _ HB), Nat2N.id in H. exact H. }
    clear - Hn. revert Hn. generalize (distinct a) (distinct b).
    induction l as [|x l IH]; intros m Hn; [exists m; reflexivity|].
    destruct m as [|y m]; [specialize (Hn 0 x eq_refl); discriminate|].
    pose proof (Hn 0 x eq_refl) as E; cbn in E; inversion E; subst.
    destruct (IH m) as [c ->]; [intros k n Hk; exact (Hn (S k) n Hk)|]. exists c; reflexivity.
  - intros [c Hc] n i Hn <-.
    assert (In n (distinct a)) as Hi by (apply firsts_In; auto).
    apply nth_error_In_iff in Hi as [k Hk].
    rewrite (intern_registered _ HA Hk). cbn. apply (name_of_inv _ _ HB). rewrite Hc.
    rewrite nth_error_app1; [exact Hk|]. apply nth_error_Some; congruence.
Qed.

(** * Heap lemmas *)
Lemma heap_set_length h l d : List.length (heap_set h l d) = List.length h.
Proof. revert l; induction h as [|x h IH]; intros [|l]; cbn; auto. Qed.
Lemma heap_get_set h l d k : l < List.length h ->
  heap_get (heap_set h l d) k = if Nat.eqb k l then d else heap_get h k.
Proof.
  unfold heap_get. revert l k; induction h as [|x h IH]; intros [|l] [|k] Hl; cbn in *; try lia; auto.
  apply IH; lia.
Qed.

(** The 'windows' entry turned into a tuple/list. *)
Definition seqlike (v : yval) : bool := match v with YList _ | YTuple _ => true | _ => false end.
Definition as_tuple (v : yval) : yval := match v with YList l => YTuple l | v => v end.
Definition as_list (v : yval) : yval := match v with YTuple l => YList l | v => v end.
Definition win (f : yval -> yval) (d : ydict) : ydict :=
  match dget d "windows"%string with None => d | Some v => dset d "windows"%string (f v) end.

Lemma dset_dset {K V} `{EqDec K} (d : list (K * V)) k v v' : dset (dset d k v) k v' = dset d k v'.
Proof.
  induction d as [|[a b] d IH]; cbn; [rewrite eqb_refl; reflexivity|].
  destruct (eqb k a) eqn:E; cbn; rewrite E; [reflexivity|]. rewrite IH; reflexivity.
Qed.
Lemma dset_same {K V} `{EqDec K} (d : list (K * V)) k v : dget d k = Some v -> dset d k v = d.
Proof.
  induction d as [|[a b] d IH]; cbn; [discriminate|].
  destruct (eqb k a) eqn:E; [intros X; inversion X; reflexivity|]. intros X; rewrite IH; auto.
Qed.

Lemma win_win f g d : win f (win g d) = win (fun v => f (g v)) d.
Proof.
  unfold win. destruct (dget d "windows"%string) as [v|] eqn:E.
  - rewrite dget_dset_same, dset_dset. reflexivity.
  - rewrite E. reflexivity.
Qed.
Lemma win_ext f g d : (forall v, f v = g v) -> win f d = win g d.
Proof. intros E. unfold win. destruct (dget d "windows"%string); [rewrite E|]; reflexivity. Qed.
Lemma win_id d : scan_is is_tuple d = true -> win as_tuple d = d.
Proof.
  unfold scan_is, win. destruct (dget d "windows"%string) as [v|] eqn:E; [|reflexivity].
  intros Ht. apply dset_same. destruct v; cbn in *; congruence.
Qed.
Lemma win_scan f d p : scan_is p (win f d) = scan_is (fun v => p (f v)) d.
Proof.
  unfold scan_is, win. destruct (dget d "windows"%string) as [v|] eqn:E; [|rewrite E; reflexivity].
  rewrite dget_dset_same. reflexivity.
Qed.

Lemma upd_tuple h s : match s with None => True | Some l => l < List.length h /\ scan_is seqlike (heap_get h l) = true end ->
  exists h', upd_windows to_tuple h s = Ok h' /\ List.length h' = List.length h /\
    (forall k, heap_get h' k = heap_get h k \/ heap_get h' k = win as_tuple (heap_get h k)) /\
    match s with None => True | Some l => heap_get h' l = win as_tuple (heap_get h l) end.
Proof.
  destruct s as [l|]; cbn; [|intros _; exists h; repeat split; auto].
  intros [Hl Hs]. unfold scan_is in Hs. unfold win.
  destruct (dget (heap_get h l) "windows"%string) as [v|] eqn:E.
  - assert (to_tuple v = Ok (as_tuple v)) as -> by (destruct v; cbn in *; try discriminate; reflexivity).
    cbn. eexists; split; [reflexivity|]. split; [apply heap_set_length|]. split.
    + intros k. rewrite heap_get_set by exact Hl. destruct (Nat.eqb_spec k l) as [->|]; [right|left; reflexivity].
      rewrite E. reflexivity.
    + rewrite heap_get_set, Nat.eqb_refl by exact Hl. reflexivity.
  - exists h. repeat split; auto.
Qed.
Lemma upd_list h s : match s with None => True | Some l => l < List.length h /\ scan_is seqlike (heap_get h l) = true end ->
  exists h', upd_windows to_list h s = Ok h' /\ List.length h' = List.length h /\
    (forall k, heap_get h' k = heap_get h k \/ heap_get h' k = win as_list (heap_get h k)) /\
    match s with None => True | Some l => heap_get h' l = win as_list (heap_get h l) end.
Proof.
  destruct s as [l|]; cbn; [|intros _; exists h; repeat split; auto].
  intros [Hl Hs]. unfold scan_is in Hs. unfold win.
  destruct (dget (heap_get h l) "windows"%string) as [v|] eqn:E.
  - assert (to_list v = Ok (as_list v)) as -> by (destruct v; cbn in *; try discriminate; reflexivity).
    cbn. eexists; split; [reflexivity|]. split; [apply heap_set_length|]. split.
    + intros k. rewrite heap_get_set by exact Hl. destruct (Nat.eqb_spec k l) as [->|]; [right|left; reflexivity].
      rewrite E. reflexivity.
    + rewrite heap_get_set, Nat.eqb_refl by exact Hl. reflexivity.
  - exists h. repeat split; auto.
Qed.

(** * Serialization as a pure function *)
Definition sdata (name : string) (b : button) : ydict :=
  [("name"%string, YStr name); ("width"%string, bwidth b); ("scancode"%string, scan_val (bscan b))] ++
  match bkind b with Standard => [] | k => [("kind"%string, YStr (kind_name k))] end ++
  (if truthy (bmarked b) then [("isMarked"%string, bmarked b)] else []) ++
  match bspan b with Some sp => [("span"%string, sp)] | None => [] end.

Arguments sdata : simpl never.
Arguments heap_get : simpl never.

(** [valid_button] up to list/tuple. *)
Definition okb (w : world) (b : button) : Prop :=
  (exists n, button_name w b = Ok n) /\
  match bkind b, bspan b with Multi, Some _ => True | Multi, None => False | _, None => True | _, Some _ => False end /\
  match bscan b with None => True | Some l => l < List.length (wheap w) /\ scan_is seqlike (heap_get (wheap w) l) = true end.
Definition nm (w : world) (b : button) : string :=
  match button_name w b with Ok n => n | Raise _ => EmptyString end.

Lemma valid_okb w b : valid_button w b -> okb w b.
Proof.
  intros (H1 & H2 & H3). split; [exact H1|]. split; [exact H2|].
  destruct (bscan b); [|exact I]. destruct H3 as [Hl Hs]. split; [exact Hl|].
  unfold scan_is in *. destruct (dget _ _) as [v|]; [|reflexivity]. destruct v; cbn in *; congruence.
Qed.

Lemma button_serialize_ok w b : okb w b -> exists w',
  button_serialize w b = (w', Ok (sdata (nm w b) b)) /\ wreg w' = wreg w /\
  List.length (wheap w') = List.length (wheap w) /\
  (forall k, heap_get (wheap w') k = heap_get (wheap w) k \/ heap_get (wheap w') k = win as_list (heap_get (wheap w) k)).
Proof.
  intros ((n & Hn) & Hsp & Hsc). destruct (upd_list _ _ Hsc) as (h' & E & El & Ek & _).
  exists (mkWorld (wreg w) h'). unfold button_serialize, nm. rewrite Hn. unfold button_name in Hn. rewrite Hn, E.
  split; [|cbn; auto]. f_equal. f_equal. unfold sdata.
  destruct (bkind b), (bspan b), (truthy (bmarked b)); try contradiction; reflexivity.
Qed.

Lemma seqlike_step w w' b : (forall k, heap_get (wheap w') k = heap_get (wheap w) k \/ heap_get (wheap w') k = win as_list (heap_get (wheap w) k)
     \/ heap_get (wheap w') k = win as_tuple (heap_get (wheap w) k)) ->
  wreg w' = wreg w -> List.length (wheap w') = List.length (wheap w) -> okb w b -> okb w' b.
Proof.
  intros Hk Hr Hl (H1 & H2 & H3). split; [unfold button_name in *; rewrite Hr; exact H1|]. split; [exact H2|].
  destruct (bscan b) as [l|]; [|exact I]. destruct H3 as [H3 H4]. split; [lia|].
  destruct (Hk l) as [E|[E|E]]; rewrite E; [exact H4| |]; rewrite win_scan;
  unfold scan_is in *; destruct (dget _ _) as [v|]; auto; destruct v; cbn in *; congruence.
Qed.

(** Heaps agree up to list/tuple. *)
Definition heq (h h' : list ydict) : Prop :=
  List.length h' = List.length h /\ forall k, win as_tuple (heap_get h' k) = win as_tuple (heap_get h k).
Lemma heq_refl h : heq h h.
Proof. split; auto. Qed.
Lemma heq_trans a b c : heq a b -> heq b c -> heq a c.
Proof. intros [L1 H1] [L2 H2]. split; [congruence|]. intros k. rewrite H2. apply H1. Qed.
Lemma heq_okb w w' b : heq (wheap w) (wheap w') -> wreg w' = wreg w -> okb w b -> okb w' b.
Proof.
  intros [L Hk] Hr (H1 & H2 & H3). split; [unfold button_name in *; rewrite Hr; exact H1|]. split; [exact H2|].
  destruct (bscan b) as [l|]; [|exact I]. destruct H3 as [H3 H4]. split; [lia|].
  specialize (Hk l). apply (f_equal (scan_is seqlike)) in Hk. rewrite !win_scan in Hk.
  unfold scan_is in *. destruct (dget (heap_get (wheap w') l) _) as [v|], (dget (heap_get (wheap w) l) _) as [v'|]; auto;
  try destruct v; try destruct v'; cbn in *; congruence.
Qed.
Lemma heq_list_step h h' : List.length h' = List.length h ->
  (forall k, heap_get h' k = heap_get h k \/ heap_get h' k = win as_list (heap_get h k)) -> heq h h'.
Proof.
  intros L Hk. split; [exact L|]. intros k. destruct (Hk k) as [-> | ->]; [reflexivity|].
  rewrite win_win. apply win_ext. intros []; reflexivity.
Qed.
Lemma nm_reg w w' b : wreg w' = wreg w -> nm w' b = nm w b.
Proof. unfold nm, button_name. intros ->. reflexivity. Qed.

Lemma ser_list_ok w bs : Forall (okb w) bs -> exists w',
  ser_list w bs = (w', Ok (map (fun b => sdata (nm w b) b) bs)) /\ wreg w' = wreg w /\ heq (wheap w) (wheap w').
Proof.
  revert w; induction bs as [|b bs IH]; intros w Hbs; cbn.
  - exists w. auto using heq_refl.
  - inversion Hbs as [|? ? Hb Hbs']; subst.
    destruct (button_serialize_ok Hb) as (w1 & E1 & R1 & L1 & K1). rewrite E1.
    pose proof (heq_list_step _ _ L1 K1) as Q1.
    destruct (IH w1) as (w2 & E2 & R2 & Q2).
    { eapply Forall_impl; [|exact Hbs']. intros a; apply heq_okb; auto. }
    rewrite E2. exists w2. split; [|split; [congruence|eapply heq_trans; eauto]].
    do 3 f_equal. apply map_ext. intros a. rewrite (nm_reg w w1); auto.
Qed.

Definition rows_okb w (rows : list (list button * list button)) : Prop := Forall (okb w) (all_buttons rows).
Definition sdata_rows w (rows : list (list button * list button)) :=
  map (fun row => (map (fun b => sdata (nm w b) b) (fst row), map (fun b => sdata (nm w b) b) (snd row))) rows.

Lemma map_nm_reg w w1 bs : wreg w1 = wreg w ->
  map (fun b => sdata (nm w1 b) b) bs = map (fun b => sdata (nm w b) b) bs.
Proof. intros E. apply map_ext. intros b. rewrite (nm_reg w w1); auto. Qed.

Lemma ser_rows_ok w rows : rows_okb w rows -> exists w',
  ser_rows w rows = (w', Ok (sdata_rows w rows)) /\ wreg w' = wreg w /\ heq (wheap w) (wheap w').
Proof.
  unfold rows_okb, all_buttons. revert w; induction rows as [|[l r] rows IH]; intros w Hr; cbn.
  - exists w. auto using heq_refl.
  - cbn in Hr. rewrite !Forall_app in Hr. destruct Hr as [[Hl Hr] Hrows].
    destruct (ser_list_ok Hl) as (w1 & E1 & R1 & Q1). rewrite E1.
    assert (Hr1 : Forall (okb w1) r) by (eapply Forall_impl; [|exact Hr]; intros a; apply heq_okb; auto).
    destruct (ser_list_ok Hr1) as (w2 & E2 & R2 & Q2). rewrite E2.
    pose proof (heq_trans Q1 Q2) as Q12. assert (R12 : wreg w2 = wreg w) by congruence.
    destruct (IH w2) as (w3 & E3 & R3 & Q3).
    { eapply Forall_impl; [|exact Hrows]; intros a; apply heq_okb; auto. }
    rewrite E3. exists w3. split; [|split; [congruence|eapply heq_trans; eauto]].
    do 3 f_equal; [rewrite (map_nm_reg w w1); auto|].
    unfold sdata_rows. apply map_ext. intros [a b]; cbn. rewrite !(map_nm_reg w w2); auto.
Qed.

(** * Deserialization *)
Definition norm_marked (v : yval) : yval := if truthy v then v else YBool false.
Definition norm (b : button) : button :=
  mkButton (bid b) (bkind b) (bwidth b) (norm_marked (bmarked b)) (bspan b) (bscan b).

Definition htup (h h' : list ydict) : Prop :=
  List.length h' = List.length h /\
  forall k, heap_get h' k = heap_get h k \/ heap_get h' k = win as_tuple (heap_get h k).
Lemma htup_refl h : htup h h.
Proof. split; auto. Qed.
Lemma win_tuple_idem d : win as_tuple (win as_tuple d) = win as_tuple d.
Proof. rewrite win_win. apply win_ext. intros []; reflexivity. Qed.
Lemma htup_trans a b c : htup a b -> htup b c -> htup a c.
Proof.
  intros [L1 H1] [L2 H2]. split; [congruence|]. intros k.
  destruct (H2 k) as [-> | ->]; [apply H1|]. destruct (H1 k) as [-> | ->]; [auto|]. rewrite win_tuple_idem. auto.
Qed.
Lemma htup_heq h h' : htup h h' -> heq h h'.
Proof.
  intros [L H]. split; [exact L|]. intros k. destruct (H k) as [-> | ->]; [reflexivity|apply win_tuple_idem].
Qed.
Definition tupled (h h' : list ydict) (b : button) : Prop :=
  match bscan b with None => True | Some l => heap_get h' l = win as_tuple (heap_get h l) end.
Lemma tupled_step h h1 h2 b : htup h1 h2 -> tupled h h1 b -> tupled h h2 b.
Proof.
  intros [_ H] Ht. unfold tupled in *. destruct (bscan b) as [l|]; [|exact I].
  destruct (H l) as [-> | ->]; rewrite Ht; [reflexivity|apply win_tuple_idem].
Qed.
Lemma tupled_pre h h1 h2 b : heq h h1 -> tupled h1 h2 b -> tupled h h2 b.
Proof.
  intros [_ H] Ht. unfold tupled in *. destruct (bscan b) as [l|]; [|exact I]. rewrite Ht. apply H.
Qed.

Lemma button_deserialize_ok w ns b : RegInv (wreg w) ns -> okb w b -> exists w' d',
  button_deserialize w (sdata (nm w b) b) = (w', d', Ok (norm b)) /\ wreg w' = wreg w /\
  htup (wheap w) (wheap w') /\ tupled (wheap w) (wheap w') b.
Proof.
  intros HI ((n & Hn) & Hsp & Hsc). destruct (upd_tuple _ _ Hsc) as (h' & E & El & Ek & Et).
  pose proof Hn as Hn'. unfold button_name in Hn'. apply (name_of_inv _ _ HI) in Hn'.
  pose proof (intern_registered _ HI Hn') as Hint.
  assert (nm w b = n) as -> by (unfold nm; rewrite Hn; reflexivity).
  exists (mkWorld (wreg w) h'). 
  unfold button_deserialize, sdata, norm, norm_marked.
  destruct b as [i k wd mk sp sc]; cbn [bid bkind bwidth bmarked bspan bscan] in *.
  destruct k, sp as [sp|]; try contradiction; destruct (truthy mk), sc as [l|]; cbn;
    unfold button_new; rewrite Hint; rewrite E; cbn;
    (eexists; split; [reflexivity|]; split; [reflexivity|]; split; [split; [exact El|exact Ek]|exact Et]).
Qed.

Lemma deser_list_ok w ns bs : RegInv (wreg w) ns -> Forall (okb w) bs -> exists w',
  deser_list w (map (fun b => sdata (nm w b) b) bs) = (w', Ok (map norm bs)) /\ wreg w' = wreg w /\
  htup (wheap w) (wheap w') /\ Forall (tupled (wheap w) (wheap w')) bs.
Proof.
  revert w; induction bs as [|b bs IH]; intros w HI Hbs; cbn [deser_list map].
  - exists w. auto using htup_refl.
  - inversion Hbs as [|? ? Hb Hbs']; subst.
    destruct (button_deserialize_ok HI Hb) as (w1 & d1 & E1 & R1 & T1 & U1). rewrite E1.
    rewrite <- (map_nm_reg w w1) by exact R1.
    destruct (IH w1) as (w2 & E2 & R2 & T2 & U2).
    { rewrite R1; exact HI. }
    { eapply Forall_impl; [|exact Hbs']; intros a; apply heq_okb; [apply htup_heq|]; auto. }
    rewrite E2. exists w2. split; [reflexivity|]. split; [congruence|].
    split; [eapply htup_trans; eauto|]. constructor.
    + eapply tupled_step; eauto.
    + eapply Forall_impl; [|exact U2]. intros a. apply tupled_pre, htup_heq, T1.
Qed.

Definition norm_rows (rows : list (list button * list button)) :=
  map (fun row => (map norm (fst row), map norm (snd row))) rows.

Lemma sdata_rows_reg w w1 rows : wreg w1 = wreg w -> sdata_rows w1 rows = sdata_rows w rows.
Proof.
  intros E. unfold sdata_rows. apply map_ext. intros [a b]; cbn. rewrite !(map_nm_reg w w1); auto.
Qed.

Lemma deser_rows_ok w ns rows : RegInv (wreg w) ns -> rows_okb w rows -> exists w',
  deser_rows w (sdata_rows w rows) = (w', Ok (norm_rows rows)) /\ wreg w' = wreg w /\
  htup (wheap w) (wheap w') /\ Forall (tupled (wheap w) (wheap w')) (all_buttons rows).
Proof.
  unfold rows_okb, all_buttons. revert w; induction rows as [|[l r] rows IH]; intros w HI Hr; cbn [deser_rows sdata_rows norm_rows map flat_map fst snd].
  - exists w. auto using htup_refl.
  - cbn in Hr. rewrite !Forall_app in Hr. destruct Hr as [[Hl Hr] Hrows].
    destruct (deser_list_ok HI Hl) as (w1 & E1 & R1 & T1 & U1). rewrite E1.
    assert (HI1 : RegInv (wreg w1) ns) by (rewrite R1; exact HI).
    assert (Hr1 : Forall (okb w1) r) by (eapply Forall_impl; [|exact Hr]; intros a; apply heq_okb; [apply htup_heq|]; auto).
    rewrite <- (map_nm_reg w w1) by exact R1.
    destruct (deser_list_ok HI1 Hr1) as (w2 & E2 & R2 & T2 & U2). rewrite E2.
    pose proof (htup_trans T1 T2) as T12. assert (R12 : wreg w2 = wreg w) by congruence.
    fold (sdata_rows w rows). fold (norm_rows rows). rewrite <- (sdata_rows_reg w w2) by exact R12.
    destruct (IH w2) as (w3 & E3 & R3 & T3 & U3).
    { rewrite R12; exact HI. }
    { eapply Forall_impl; [|exact Hrows]; intros a; apply heq_okb; [apply htup_heq|]; auto. }
    rewrite E3. exists w3. split; [reflexivity|]. split; [congruence|].
    split; [eapply htup_trans; eauto|]. rewrite !Forall_app. repeat split.
    + eapply Forall_impl; [|exact U1]. intros a; apply tupled_step. eapply htup_trans; eauto.
    + eapply Forall_impl; [|exact U2]. intros a Ha. eapply tupled_step; [exact T3|].
      eapply tupled_pre; [apply htup_heq, T1|exact Ha].
    + eapply Forall_impl; [|exact U3]. intros a. apply tupled_pre, htup_heq, T12.
Qed.

(** * Round trip through a file *)
Definition reloc (b : button) (s : option nat) : button :=
  mkButton (bid b) (bkind b) (bwidth b) (bmarked b) (bspan b) s.

Lemma sdata_reloc n b l : bscan b <> None -> sdata n (reloc b (Some l)) = dset (sdata n b) "scancode"%string (YRef l).
Proof. unfold sdata. destruct b as [i k wd mk sp [s|]]; cbn; [reflexivity|congruence]. Qed.

(** [b'] is [b] with its scancode table copied. *)
Definition copied (h : list ydict) (b : button) (h' : list ydict) (b' : button) : Prop :=
  match bscan b with
  | None => b' = b
  | Some l => exists l', b' = reloc b (Some l') /\ l' < List.length h' /\ heap_get h' l' = heap_get h l
  end.
Definition hext (h h' : list ydict) : Prop := exists e, h' = h ++ e.
Lemma hext_get h h' l : hext h h' -> l < List.length h -> heap_get h' l = heap_get h l /\ l < List.length h'.
Proof.
  intros [e ->] Hl. unfold heap_get. rewrite app_nth1 by exact Hl. rewrite app_length. split; [reflexivity|lia].
Qed.
Lemma hext_trans a b c : hext a b -> hext b c -> hext a c.
Proof. intros [x ->] [y ->]. exists (x ++ y). rewrite app_assoc. reflexivity. Qed.
Lemma hext_refl a : hext a a.
Proof. exists []. now rewrite app_nil_r. Qed.
Definition locs_ok (h : list ydict) (b : button) : Prop :=
  match bscan b with None => True | Some l => l < List.length h end.
Lemma copied_ext h b h1 h2 b' : hext h1 h2 -> copied h b h1 b' -> copied h b h2 b'.
Proof.
  unfold copied. intros He. destruct (bscan b); [|auto]. intros (l' & -> & Hl & Hg).
  exists l'. destruct (hext_get He Hl) as [E L]. rewrite E. auto.
Qed.
Lemma copied_pre h h0 b h1 b' : locs_ok h0 b -> hext h0 h -> copied h b h1 b' -> copied h0 b h1 b'.
Proof.
  unfold copied, locs_ok. intros Hl He. destruct (bscan b); [|auto]. intros (l' & -> & Hl' & Hg).
  exists l'. destruct (hext_get He Hl) as [E L]. rewrite <- E. auto.
Qed.

Lemma reload_list_ok (f : button -> string) h bs : Forall (locs_ok h) bs -> exists h' bs',
  reload_list h (map (fun b => sdata (f b) b) bs) = (h', map (fun p => sdata (f (fst p)) (snd p)) (combine bs bs')) /\
  Forall2 (fun b b' => copied h b h' b') bs bs' /\ hext h h'.
Proof.
  revert h; induction bs as [|b bs IH]; intros h Hb; cbn.
  - exists h, []. auto using hext_refl.
  - inversion Hb as [|? ? Hb1 Hb2]; subst.
    assert (exists h1 b', reload1 h (sdata (f b) b) = (h1, sdata (f b) b') /\ copied h b h1 b' /\ hext h h1) as (h1 & b' & E1 & C1 & X1).
    { unfold reload1. replace (dget (sdata (f b) b) "scancode"%string) with (Some (scan_val (bscan b))) by reflexivity.
      unfold locs_ok in Hb1. unfold copied. destruct (bscan b) as [l|] eqn:Es; cbn [scan_val].
      - exists (h ++ [heap_get h l]), (reloc b (Some (List.length h))). split.
        + rewrite sdata_reloc by congruence. reflexivity.
        + split; [|exists [heap_get h l]; reflexivity]. eexists; split; [reflexivity|].
          rewrite app_length; cbn. split; [lia|]. unfold heap_get at 1. rewrite app_nth2, Nat.sub_diag by lia. reflexivity.
      - exists h, b. auto using hext_refl. }
    rewrite E1. destruct (IH h1) as (h2 & bs' & E2 & C2 & X2).
    { eapply Forall_impl; [|exact Hb2]. intros a. unfold locs_ok. destruct (bscan a); [|auto].
      intros Hl. eapply hext_get; eauto. }
    rewrite E2. exists h2, (b' :: bs'). split; [reflexivity|]. split; [|eapply hext_trans; eauto].
    constructor; [eapply copied_ext; eauto|].
    clear - C2 Hb2 X1. induction C2; constructor; inversion Hb2; subst; auto.
    eapply copied_pre; eauto.
Qed.

Lemma locs_ext h h1 bs : hext h h1 -> Forall (locs_ok h) bs -> Forall (locs_ok h1) bs.
Proof.
  intros X1. apply Forall_impl. intros a. unfold locs_ok. destruct (bscan a); [|auto].
  intros Hl. eapply hext_get; eauto.
Qed.
Lemma copied_list_pre h h0 bs h1 bs' : Forall (locs_ok h0) bs -> hext h0 h ->
  Forall2 (fun b b' => copied h b h1 b') bs bs' -> Forall2 (fun b b' => copied h0 b h1 b') bs bs'.
Proof.
  intros Hl X C. revert Hl. induction C; constructor; inversion Hl; subst; auto. eapply copied_pre; eauto.
Qed.
Lemma copied_list_ext h bs h1 h2 bs' : hext h1 h2 ->
  Forall2 (fun b b' => copied h b h1 b') bs bs' -> Forall2 (fun b b' => copied h b h2 b') bs bs'.
Proof. intros X C. induction C; constructor; auto. eapply copied_ext; eauto. Qed.

Lemma sdata_copied_map w bs h h' bs' : Forall2 (fun b b' => copied h b h' b') bs bs' ->
  map (fun p => sdata (nm w (fst p)) (snd p)) (combine bs bs') = map (fun b => sdata (nm w b) b) bs'.
Proof.
  induction 1 as [|b b' bs bs' C _ IH]; cbn; [reflexivity|]. rewrite IH. f_equal.
  unfold copied in C. destruct (bscan b); [destruct C as (l' & -> & _)|subst; reflexivity]. reflexivity.
Qed.

Definition copied_rows h (rows : list (list button * list button)) h' (rows' : list (list button * list button)) :=
  Forall2 (fun r r' => Forall2 (fun b b' => copied h b h' b') (fst r) (fst r') /\
                       Forall2 (fun b b' => copied h b h' b') (snd r) (snd r')) rows rows'.

Lemma reload_rows_ok w h rows : Forall (locs_ok h) (all_buttons rows) -> exists h' rows',
  reload_rows h (sdata_rows w rows) = (h', sdata_rows w rows') /\ copied_rows h rows h' rows' /\ hext h h'.
Proof.
  unfold all_buttons, copied_rows. revert h; induction rows as [|[l r] rows IH]; intros h Hr; cbn.
  - exists h, []. auto using hext_refl.
  - cbn in Hr. rewrite !Forall_app in Hr. destruct Hr as [[Hl Hr] Hrows].
    destruct (reload_list_ok (nm w) Hl) as (h1 & l' & E1 & C1 & X1). rewrite E1.
    destruct (reload_list_ok (nm w) (locs_ext X1 Hr)) as (h2 & r' & E2 & C2 & X2). rewrite E2.
    pose proof (hext_trans X1 X2) as X12.
    destruct (IH h2) as (h3 & rows' & E3 & C3 & X3); [eapply locs_ext; eauto|].
    fold (sdata_rows w rows). rewrite E3. exists h3, ((l', r') :: rows').
    rewrite (sdata_copied_map w _ _ C1), (sdata_copied_map w _ _ C2). split; [reflexivity|].
    split; [|eapply hext_trans; eauto]. constructor; cbn.
    + split.
      * eapply copied_list_ext; [exact (hext_trans X2 X3)|exact C1].
      * eapply copied_list_ext; [exact X3|]. exact (copied_list_pre _ Hr X1 C2).
    + revert C3. unfold all_buttons in Hrows. clear - Hrows X12. intros C3. revert Hrows.
      induction C3 as [|[a b] [a' b'] ? ? [Ca Cb] _ IH]; intros Hrows; constructor; cbn in *;
        rewrite !Forall_app in Hrows; destruct Hrows as [[Ha Hb] Hrest]; auto.
      split; [exact (copied_list_pre _ Ha X12 Ca)|exact (copied_list_pre _ Hb X12 Cb)].
Qed.

Lemma fill_rows_ids i rows rows' d :
  Forall2 (fun r r' => map bid (fst r) = map bid (fst r') /\ map bid (snd r) = map bid (snd r')) rows rows' ->
  fill_rows i rows d = fill_rows i rows' d.
Proof.
  intros F. revert i d. induction F as [|[l r] [l' r'] rows rows' [E1 E2] _ IH]; intros i d; cbn; [reflexivity|].
  cbn in E1, E2. rewrite IH. f_equal.
  assert (G : forall a a' d, map bid a = map bid a' ->
     fold_left (fun d b => dset d (bid b) i) a d = fold_left (fun d b => dset d (bid b) i) a' d).
  { induction a as [|x a IHa]; intros [|y a'] d0 E; cbn in *; try discriminate; [reflexivity|].
    inversion E as [[Ex Ea]]. rewrite Ex. apply IHa, Ea. }
  apply G. rewrite !map_app. congruence.
Qed.

Lemma Forall2_map_eq {A B C} (R : A -> B -> Prop) (f : A -> C) (g : B -> C) l m :
  Forall2 R l m -> (forall x y, R x y -> f x = g y) -> map f l = map g m.
Proof. intros F E. induction F; cbn; [reflexivity|]. f_equal; auto. Qed.

Theorem keyboard_roundtrip w ns kb :
  wreg w = snd (create reg0 ns) ->
  kb = keyboard_new (kname kb) (kdesc kb) (krows kb) ->
  Forall (valid_button w) (all_buttons (krows kb)) ->
  exists w1 d w2 d2 w3 kb',
    kb_serialize w kb = (w1, Ok d) /\ reload w1 d = (w2, d2) /\
    kb_deserialize w2 d2 = (w3, Ok kb') /\
    same_keyboard w kb w3 kb' /\ kbtorow kb' = kbtorow kb /\
    Forall (valid_button w3) (all_buttons (krows kb')).
Proof.
  intros Hreg Hkb Hv.
  destruct (create_inv ns RegInv0) as [HI _]. rewrite <- Hreg in HI.
  assert (Hok : rows_okb w (krows kb)) by (eapply Forall_impl; [|exact Hv]; intros a; apply valid_okb).
  destruct (ser_rows_ok Hok) as (w1 & E1 & R1 & Q1).
  assert (Hok1 : rows_okb w1 (krows kb)) by (eapply Forall_impl; [|exact Hok]; intros a; apply heq_okb; auto).
  assert (Hl : Forall (locs_ok (wheap w1)) (all_buttons (krows kb))).
  { eapply Forall_impl; [|exact Hok1]. intros a (_ & _ & Ha). unfold locs_ok. destruct (bscan a); tauto. }
  destruct (reload_rows_ok w _ Hl) as (h2 & rows' & E2 & C2 & X2).
  set (w2 := mkWorld (wreg w1) h2).
  assert (Hok2 : rows_okb w2 rows').
  { unfold rows_okb, all_buttons. clear - C2 Hok1 R1. unfold rows_okb, all_buttons in Hok1.
    induction C2 as [|[a b] [a' b'] ? ? [Ca Cb] _ IH]; cbn in *; [constructor|].
    rewrite !Forall_app in *. destruct Hok1 as [[Ha Hb] Hrest].
    assert (G : forall bs bs', Forall (okb w1) bs -> Forall2 (fun x y => copied (wheap w1) x h2 y) bs bs' -> Forall (okb w2) bs').
    { intros bs bs' Hbs C. revert Hbs. induction C as [|x y bs bs' Cxy _ IHC]; intros Hbs; constructor; inversion Hbs as [|? ? Hx Hbs']; subst; auto.
      destruct Hx as (H1 & H2 & H3). unfold copied in Cxy. destruct (bscan x) as [lx|] eqn:Ex.
      - destruct Cxy as (lx' & -> & Hl' & Hg). split; [exact H1|]. split; [exact H2|]. cbn [reloc bscan]. unfold w2; cbn [wheap]. rewrite Hg. tauto.
      - subst y. split; [exact H1|]. split; [exact H2|]. rewrite Ex. exact I. }
    repeat split; eauto. }
  assert (HI2 : RegInv (wreg w2) (firsts [] ns)) by (cbn; rewrite R1; exact HI).
  destruct (deser_rows_ok HI2 Hok2) as (w3 & E3 & R3 & T3 & U3).
  assert (Hsame : Forall2 (fun a b => same_row w a w3 b) (krows kb) (norm_rows rows')).
  { clear - C2 Hv U3 Q1 R1 R3.
    assert (Rw : wreg w3 = wreg w) by (rewrite R3; exact R1).
    assert (G : forall bs bs', Forall (valid_button w) bs -> Forall (tupled h2 (wheap w3)) bs' ->
              Forall2 (fun x y => copied (wheap w1) x h2 y) bs bs' -> Forall2 (fun a b => same_button w a w3 b) bs (map norm bs')).
    { intros bs bs' Hbs Hbs' C. revert Hbs Hbs'. induction C as [|x y bs bs' Cxy _ IHC]; intros Hbs Hbs'; cbn; constructor;
        inversion Hbs as [|? ? Hx Hr]; inversion Hbs' as [|? ? Hy Hr']; subst; auto.
      destruct Hx as (H1 & H2 & H3). unfold copied in Cxy.
      assert (Em : forall v, truthy v = truthy (norm_marked v)).
      { intros v. unfold norm_marked. destruct (truthy v) eqn:Ev; [congruence|reflexivity]. }
      unfold same_button, button_name. rewrite Rw. unfold scan_content.
      destruct (bscan x) as [l|] eqn:Ex.
      - destruct Cxy as (l' & -> & Hl' & Hg). cbn. repeat split; auto. f_equal.
        unfold tupled in Hy; cbn in Hy. rewrite Hy, Hg. destruct Q1 as [_ Q1]. rewrite Q1.
        symmetry. apply win_id, H3.
      - subst y. cbn. rewrite Ex. repeat split; auto. }
    unfold all_buttons in *. revert Hv U3. induction C2 as [|[a b] [a' b'] ? ? [Ca Cb] _ IH]; cbn in *; intros Hv U3; constructor.
    - cbn in *. rewrite !Forall_app in *. split; apply G; tauto.
    - rewrite !Forall_app in *. apply IH; tauto. }
  assert (Hids : kbtorow kb = fill_rows 0 (norm_rows rows') []).
  { rewrite Hkb at 1. cbn. apply fill_rows_ids. clear - Hsame. induction Hsame as [|? ? ? ? [H1 H2]]; constructor; auto.
    split; eapply Forall2_map_eq; eauto; intros ? ? (_ & Hid & _); exact Hid. }
  exists w1, (mkKdata (kname kb) (kdesc kb) (sdata_rows w (krows kb))), w2,
    (mkKdata (kname kb) (kdesc kb) (sdata_rows w rows')), w3, (keyboard_new (kname kb) (kdesc kb) (norm_rows rows')).
  split; [unfold kb_serialize; rewrite E1; reflexivity|].
  split; [unfold reload; cbn; rewrite E2; reflexivity|].
  split; [unfold kb_deserialize; cbn; rewrite <- (sdata_rows_reg w w2) by exact R1; rewrite E3; reflexivity|].
  split; [split; [reflexivity|split; [reflexivity|exact Hsame]]|].
  split; [symmetry; exact Hids|].
  cbn. assert (L3 : List.length (wheap w3) = List.length h2) by (destruct T3 as [T3 _]; exact T3).
  clear - Hok2 U3 R3 L3. unfold rows_okb in Hok2.
  assert (G : forall bs, Forall (okb w2) bs -> Forall (tupled (wheap w2) (wheap w3)) bs -> Forall (valid_button w3) (map norm bs)).
  { induction bs as [|b bs IH]; intros H1 H2; cbn; constructor; inversion H1 as [|? ? Hb Hr]; inversion H2 as [|? ? Tb Tr]; subst; auto.
    destruct Hb as (B1 & B2 & B3). unfold button_name in B1. rewrite <- R3 in B1.
    split; [exact B1|]. split; [exact B2|]. cbn. unfold tupled in Tb.
    destruct (bscan b) as [l|]; [|exact I]. rewrite L3, Tb, win_scan. split; [apply B3|].
    destruct B3 as [_ B3]. unfold scan_is in *. destruct (dget _ _) as [v|]; [|reflexivity]. destruct v; cbn in *; congruence. }
  assert (En : all_buttons (norm_rows rows') = map norm (all_buttons rows')).
  { unfold all_buttons, norm_rows. clear. induction rows' as [|[a b] rows' IH]; cbn; [reflexivity|].
    rewrite IH, !map_app. reflexivity. }
  change (Forall (valid_button w3) (all_buttons (norm_rows rows'))). rewrite En. apply G; assumption.
Qed.

(** * Lookups *)
Lemma kb_len_keys kb : kb_len kb = List.length (kb_keys kb).
Proof.
  unfold kb_len, kb_keys.
  assert (G : forall rows n, fold_left (fun n (row : list button * list button) => n + (List.length (fst row) + List.length (snd row))) rows n
     = n + List.length (flat_map (fun row => fst row ++ snd row) rows)).
  { induction rows as [|[l r] rows IH]; intros n; cbn; [lia|]. rewrite IH, !app_length. lia. }
  apply (G (krows kb) 0).
Qed.

Lemma find_button_spec w l name : Forall (fun b => exists n, button_name w b = Ok n) l ->
  match find_button (wreg w) l name with
  | Ok b => exists l1 l2, l = l1 ++ b :: l2 /\ button_name w b = Ok name /\
                          Forall (fun c => button_name w c <> Ok name) l1
  | Raise e => e = KeyError /\ Forall (fun c => button_name w c <> Ok name) l
  end.
Proof.
  unfold button_name. induction l as [|b l IH]; intros Hl; cbn; [auto|].
  inversion Hl as [|? ? [n Hn] Hl']; subst. rewrite Hn; cbn.
  destruct (String.eqb_spec n name) as [->|Hne].
  - exists [], l. auto.
  - specialize (IH Hl'). destruct (find_button (wreg w) l name) as [c|e].
    + destruct IH as (l1 & l2 & -> & Hc & Hf). exists (b :: l1), l2. repeat split; auto.
      constructor; [congruence|exact Hf].
    + destruct IH as [-> Hf]. split; [reflexivity|]. constructor; [congruence|exact Hf].
Qed.

(** [getRow]: last row holding a button with that id. *)
Lemma fold_dset_get (l : list button) (i : nat) d k :
  dget (fold_left (fun d b => dset d (bid b) i) l d) k = if mem k (map bid l) then Some i else dget d k.
Proof.
  revert d; induction l as [|b l IH]; intros d; cbn; [reflexivity|].
  rewrite IH, dget_dset. change (eqb k (bid b)) with (N.eqb k (bid b)). destruct (mem k (map bid l)); [now rewrite orb_true_r|].
  rewrite orb_false_r. reflexivity.
Qed.

Lemma fill_rows_get rows i d k :
  (forall j, dget (fill_rows i rows d) k = Some j <->
     (exists m row, nth_error rows m = Some row /\ j = i + m /\ In k (map bid (fst row ++ snd row)) /\
        (forall m' row', m < m' -> nth_error rows m' = Some row' -> ~ In k (map bid (fst row' ++ snd row'))))
     \/ (dget d k = Some j /\ forall row, In row rows -> ~ In k (map bid (fst row ++ snd row)))).
Proof.
  revert i d; induction rows as [|[l r] rows IH]; intros i d j; cbn [fill_rows].
  - split; [intros E; right; split; [exact E|intros ? []]|].
    intros [(m & row & E & _)|[E _]]; [destruct m; discriminate|exact E].
  - rewrite IH. rewrite fold_dset_get. split.
    + intros [(m & row & E & -> & Hk & Hlast)|[E Hno]].
      * left. exists (S m), row. split; [exact E|]. split; [lia|]. split; [exact Hk|].
        intros [|m'] row' Hm' E'; [lia|]. apply (Hlast m' row'); [lia|exact E'].
      * destruct (mem k (map bid (l ++ r))) eqn:Em.
        -- inversion E; subst. left. exists 0, (l, r). apply mem_In in Em. split; [reflexivity|]. split; [lia|].
           split; [exact Em|]. intros [|m'] row' Hm' E'; [lia|]. apply Hno. eapply nth_error_In, E'.
        -- right. split; [exact E|]. apply mem_nIn in Em. intros row [<-|Hr]; auto.
    + intros [(m & row & E & -> & Hk & Hlast)|[E Hno]].
      * destruct m as [|m].
        -- right. cbn in E. inversion E; subst. cbn in Hk. apply mem_In in Hk. rewrite Hk.
           split; [f_equal; lia|]. intros row Hr. apply In_nth_error in Hr as [m' Hm']. apply (Hlast (S m')); [lia|exact Hm'].
        -- left. exists m, row. split; [exact E|]. split; [lia|]. split; [exact Hk|].
           intros m' row' Hm' E'. apply (Hlast (S m')); [lia|exact E'].
      * right. split; [|intros row Hr; apply Hno; right; exact Hr].
        assert (mem k (map bid (l ++ r)) = false) as -> by (apply mem_nIn; apply (Hno (l, r)); left; reflexivity).
        exact E.
Qed.

Theorem getRow_spec name desc rows b j :
  kb_getRow (keyboard_new name desc rows) b = Ok j <->
  exists row, nth_error rows j = Some row /\ In (bid b) (map bid (fst row ++ snd row)) /\
    (forall j' row', j < j' -> nth_error rows j' = Some row' -> ~ In (bid b) (map bid (fst row' ++ snd row'))).
Proof.
  unfold kb_getRow, dgetM; cbn. split.
  - intros E. assert (E' : dget (fill_rows 0 rows []) (bid b) = Some j).
    { destruct (dget _ _); cbn in E; congruence. }
    apply fill_rows_get in E' as [(m & row & E1 & -> & Hk & Hlast)|[E1 _]]; [|discriminate].
    exists row. auto.
  - intros (row & E & Hk & Hlast).
    assert (E' : dget (fill_rows 0 rows []) (bid b) = Some j).
    { apply fill_rows_get. left. exists j, row. auto. }
    rewrite E'. reflexivity.
Qed.

Theorem getRow_error name desc rows b e :
  kb_getRow (keyboard_new name desc rows) b = Raise e <->
  e = KeyError /\ ~ In (bid b) (map bid (all_buttons rows)).
Proof.
  unfold kb_getRow, dgetM; cbn. split.
  - destruct (dget _ _) as [j|] eqn:E; cbn; [discriminate|]. intros X; inversion X; subst. split; [reflexivity|].
    intros Hi. unfold all_buttons in Hi. apply in_map_iff in Hi as (c & Hc & Hi). apply in_flat_map in Hi as (row & Hr & Hi).
    assert (Hex : exists row', In row' rows /\ In (bid b) (map bid (fst row' ++ snd row'))).
    { exists row. split; [exact Hr|]. rewrite <- Hc. apply in_map, Hi. }
    clear - E Hex.
    assert (G : exists j, dget (fill_rows 0 rows []) (bid b) = Some j).
    { revert Hex. generalize 0, (@nil (N * nat)). clear E. induction rows as [|[l r] rows IH]; intros i d (row & Hr & Hk); [destruct Hr|].
      cbn [fill_rows]. destruct (existsb (fun row => mem (bid b) (map bid (fst row ++ snd row))) rows) eqn:Ee.
      - apply existsb_exists in Ee as (row' & Hr' & Hk'). apply mem_In in Hk'. apply IH. eauto.
      - exists i. apply fill_rows_get. right. rewrite fold_dset_get. destruct Hr as [<-|Hr].
        + cbn in Hk. apply mem_In in Hk. rewrite Hk. split; [reflexivity|]. intros row' Hr' Hk'.
          assert (existsb (fun row => mem (bid b) (map bid (fst row ++ snd row))) rows = true) by
            (apply existsb_exists; exists row'; split; [exact Hr'|apply mem_In; exact Hk']). congruence.
        + exfalso. assert (existsb (fun row => mem (bid b) (map bid (fst row ++ snd row))) rows = true) by
            (apply existsb_exists; exists row; split; [exact Hr|apply mem_In; exact Hk]). congruence. }
    destruct G; congruence.
  - intros [-> Hn]. destruct (dget _ _) as [j|] eqn:E; [|reflexivity]. exfalso.
    apply fill_rows_get in E as [(m & row & E1 & -> & Hk & _)|[E _]]; [|discriminate].
    apply Hn. unfold all_buttons. apply in_map_iff in Hk as (c & Hc & Hi). apply in_map_iff.
    exists c. split; [exact Hc|]. apply in_flat_map. exists row. split; [eapply nth_error_In, E1|exact Hi].
Qed.

(** * What serialize does to the live objects *)
Theorem serialize_effect w b : valid_button w b -> exists w' d,
  button_serialize w b = (w', Ok d) /\ wreg w' = wreg w /\
  forall l,
    (forall k, k <> "windows"%string -> dget (heap_get (wheap w') l) k = dget (heap_get (wheap w) l) k) /\
    (dget (heap_get (wheap w') l) "windows"%string = dget (heap_get (wheap w) l) "windows"%string \/
     exists s, bscan b = Some l /\ dget (heap_get (wheap w) l) "windows"%string = Some (YTuple s) /\
               dget (heap_get (wheap w') l) "windows"%string = Some (YList s)).
Proof.
  intros Hv. pose proof (valid_okb Hv) as Hok. destruct Hok as ((n & Hn) & Hsp & Hsc).
  unfold button_serialize. unfold button_name in Hn. rewrite Hn.
  destruct (bscan b) as [l|] eqn:Eb; cbn [upd_windows].
  - destruct Hv as (_ & _ & Hv). rewrite Eb in Hv. destruct Hv as [Hl Ht]. unfold scan_is in Ht.
    destruct (dget (heap_get (wheap w) l) "windows"%string) as [v|] eqn:Ev.
    + destruct v; try discriminate. cbn. eexists _, _. split; [reflexivity|]. split; [reflexivity|].
      intros k; cbn [wheap]. rewrite heap_get_set by exact Hl.
      destruct (Nat.eqb_spec k l) as [->|]; [|split; auto]. split.
      * intros k Hk. rewrite dget_dset. destruct (eqb_spec k "windows"%string); [contradiction|reflexivity].
      * right. exists l0. rewrite dget_dset_same. auto.
    + eexists _, _. split; [reflexivity|]. split; [reflexivity|]. intros k; cbn [wheap]; auto.
  - eexists _, _. split; [reflexivity|]. split; [reflexivity|]. intros k; cbn [wheap]; auto.
Qed.

(** Deserialization consumes the 'kind' entry of its argument and leaves
    everything else of it alone. *)
Theorem deserialize_argument w data :
  snd (fst (button_deserialize w data)) = ddel data "kind"%string.
Proof.
  assert (Hd : forall d : ydict, dget d "kind"%string = None -> ddel d "kind"%string = d).
  { induction d as [|[k v] d IH]; [reflexivity|]. cbn [dget ddel]. destruct (eqb "kind"%string k); [discriminate|].
    intros E; rewrite IH; auto. }
  unfold button_deserialize.
  destruct (dget data "kind"%string) as [v|] eqn:E; [|rewrite (Hd _ E)];
  repeat (match goal with
          | |- context [match ?x with _ => _ end] => destruct x
          | |- context [if ?x then _ else _] => destruct x
          | |- context [let (_, _) := button_new ?a ?b ?c ?d ?e ?f ?g in _] => destruct (button_new a b c d e f g)
          end; try reflexivity).
Qed.
Theorem deserialize_unknown_kind w data s :
  dget data "kind"%string = Some (YStr s) -> s <> "standard"%string -> s <> "letter"%string -> s <> "multi"%string ->
  exists d', button_deserialize w data = (w, d', Raise KeyError).
Proof.
  intros E H1 H2 H3. unfold button_deserialize. rewrite E.
  assert (dget kindMap s = None) as ->.
  { unfold kindMap. cbn. destruct (String.eqb_spec s "standard"); [congruence|].
    destruct (String.eqb_spec s "letter"); [congruence|]. destruct (String.eqb_spec s "multi"); [congruence|reflexivity]. }
  eauto.
Qed.

Lemma getdef_ddel d k k' v : dict_wf d -> k' <> k -> getdef (ddel d k) k' v = given d k' v.
Proof. intros Hw Hn. unfold getdef, given. rewrite dget_ddel by exact Hw. destruct (eqb_spec k' k); [congruence|reflexivity]. Qed.
Lemma button_accepted w ns data w' d' b : RegInv (wreg w) ns -> dict_wf data -> button_deserialize w data = (w', d', Ok b) ->
  given data "kind" (YStr "standard") = YStr (kind_name (bkind b)) /\
  (exists n, dget data "name" = Some (YStr n) /\ button_name w' b = Ok n) /\
  bwidth b = given data "width" (YNum 1) /\
  bmarked b = given data "isMarked" (YBool false) /\
  scan_val (bscan b) = given data "scancode" YNone /\
  bspan b = dget data "span" /\ (bspan b <> None <-> bkind b = Multi) /\
  incl (dkeys data) button_keys.
Proof.
  intros HR Hw. unfold button_deserialize.
  match goal with |- (let (_, _) := ?x in _) = _ -> _ => set (kd := x) end.
  assert (K1 : fst kd = given data "kind" (YStr "standard")) by (unfold kd, given; destruct (dget data "kind"); reflexivity).
  assert (K2 : forall k, k <> "kind" -> dget (snd kd) k = dget data k).
  { intros k Hk. unfold kd. destruct (dget data "kind") eqn:E; [|reflexivity]. cbn [snd]. rewrite dget_ddel by exact Hw.
    destruct (eqb_spec k "kind"); [congruence|reflexivity]. }
  clearbody kd. destruct kd as [kv data']. cbn [fst snd] in K1, K2. rewrite <- K1. cbv iota beta.
  destruct kv as [| b0 | q0 |s| l0 | l0 | l0]; try (intros X; discriminate X). destruct (dget kindMap s) as [k|] eqn:Ek; [|discriminate].
  assert (Es : s = kind_name k).
  { apply dget_In in Ek. cbn in Ek. destruct Ek as [E|[E|[E|[]]]]; inversion E; reflexivity. }
  destruct (forallb _ (dkeys data')) eqn:Ef; cbn [negb]; [|discriminate].
  assert (G : forall k v, k <> "kind" -> getdef data' k v = given data k v).
  { intros k0 v Hk. unfold getdef, given. rewrite K2 by exact Hk. reflexivity. }
  rewrite !G by discriminate. rewrite !K2 by discriminate.
  assert (Hk : incl (dkeys data) ("kind" :: init_params k)).
  { intros x Hx. destruct (String.string_dec x "kind") as [->|Hn]; [left; reflexivity|right].
    rewrite forallb_forall in Ef. apply mem_In, Ef. destruct (dget data x) as [v|] eqn:E.
    - rewrite <- K2 in E by exact Hn. apply dget_In in E. apply (in_map fst) in E. exact E.
    - apply dget_None in E. contradiction. }
  destruct (dget data "name") as [[| | |nm| | |]|] eqn:En; try discriminate.
  assert (New : forall sp sc x, button_new w k nm (given data "width" (YNum 1)) (given data "isMarked" (YBool false)) sp sc = (w', x) -> x = Ok b ->
    button_name w' b = Ok nm /\ bkind b = k /\ bwidth b = given data "width" (YNum 1) /\ bmarked b = given data "isMarked" (YBool false) /\
    bspan b = sp /\ bscan b = sc).
  { intros sp sc x. unfold button_new. destruct (intern_inv nm HR) as [Hi Hn]. destruct (intern (wreg w) nm) as [i r] eqn:Ei. cbn [fst snd] in Hi, Hn.
    destruct (upd_windows to_tuple (wheap w) sc) as [h|e]; intros X Y; [|congruence].
    assert (w' = mkWorld r h) as -> by congruence. assert (b = mkButton i k (given data "width" (YNum 1)) (given data "isMarked" (YBool false)) sp sc) as -> by congruence.
    split; [|repeat split]. unfold button_name. cbn [wreg bid]. apply (name_of_inv _ _ Hi). exact Hn. }
  assert (Fin : forall sc, scan_val sc = given data "scancode" YNone -> forall d0,
    match k, dget data "span" with
    | Multi, None => (w, d0, Raise TypeError)
    | Multi, Some sp => let (w'0, b0) := button_new w k nm (given data "width" (YNum 1)) (given data "isMarked" (YBool false)) (Some sp) sc in (w'0, d0, b0)
    | _, _ => let (w'0, b0) := button_new w k nm (given data "width" (YNum 1)) (given data "isMarked" (YBool false)) None sc in (w'0, d0, b0)
    end = (w', d', Ok b) ->
    YStr s = YStr (kind_name (bkind b)) /\
    (exists n, Some (YStr nm) = Some (YStr n) /\ button_name w' b = Ok n) /\
    bwidth b = given data "width" (YNum 1) /\
    bmarked b = given data "isMarked" (YBool false) /\
    scan_val (bscan b) = given data "scancode" YNone /\
    bspan b = dget data "span" /\ (bspan b <> None <-> bkind b = Multi) /\
    incl (dkeys data) button_keys).
  { intros sc Hs d0 X.
    assert (NS : k <> Multi -> dget data "span" = None).
    { intros Hm. apply dget_None. intros Hx. apply Hk in Hx. apply mem_In in Hx. destruct k; try congruence; vm_compute in Hx; discriminate. }
    assert (KI : incl (dkeys data) button_keys).
    { intros x Hx. apply Hk in Hx. destruct k; cbn in Hx |- *; tauto. }
    assert (N2 : exists sp, (let (w'0, b0) := button_new w k nm (given data "width" (YNum 1)) (given data "isMarked" (YBool false)) sp sc in (w'0, d0, b0)) = (w', d', Ok b)
        /\ sp = dget data "span" /\ (sp <> None <-> k = Multi)).
    { destruct k.
      - exists None. split; [exact X|]. split; [symmetry; apply NS; discriminate|]. split; congruence.
      - exists None. split; [exact X|]. split; [symmetry; apply NS; discriminate|]. split; congruence.
      - destruct (dget data "span") as [sp|]; [|discriminate]. exists (Some sp). split; [exact X|]. split; [reflexivity|]. split; congruence. }
    destruct N2 as (sp & N2 & Esp & Hm). destruct (button_new w k nm _ _ sp sc) as [w0 x] eqn:Eb.
    assert (w0 = w' /\ x = Ok b) as [-> ->] by (split; congruence).
    destruct (New sp sc _ Eb eq_refl) as (B1 & B2 & B3 & B4 & B5 & B6). subst s.
    split; [congruence|]. split; [eauto|]. split; [exact B3|]. split; [exact B4|]. split; [congruence|]. split; [congruence|]. split; [|exact KI].
    rewrite B5, B2. exact Hm. }
  destruct (given data "scancode" YNone) as [| | | | | |l] eqn:Esc; try discriminate; intros X.
  - exact (Fin None eq_refl _ X).
  - exact (Fin (Some l) eq_refl _ X).
Qed.

(** What is written *)
Lemma truthy_falsy v : truthy v = false <-> falsy v.
Proof.
  split.
  - destruct v as [|[]|q|s|[|]|[|]|l]; cbn; intros H; try discriminate H; try constructor.
    + apply Qeq_bool_eq. now destruct (Qeq_bool q 0).
    + destruct (String.eqb_spec s ""); [subst; constructor|discriminate H].
  - intros []; cbn; try reflexivity. apply Qeq_eq_bool in H. now rewrite H.
Qed.
Lemma serialize_written w b : valid_button w b -> exists w' d, button_serialize w b = (w', Ok d) /\ forall k v, dget d k = Some v <-> written w b k v.
Proof.
  intros Hv. destruct (button_serialize_ok (valid_okb Hv)) as (w' & E & _). exists w', (sdata (nm w b) b). split; [exact E|].
  destruct Hv as ((n & Hn) & _). assert (nm w b = n) as -> by (unfold nm; now rewrite Hn).
  intros k v. assert (NoDup (map fst (sdata n b))) as N.
  { unfold sdata. destruct (bkind b), (truthy (bmarked b)), (bspan b); cbn; repeat constructor; cbn; intuition discriminate. }
  rewrite (dget_In_iff _ k v N). unfold sdata. rewrite !in_app_iff. split.
  - intros [[H|[H|[H|[]]]]|[H|[H|H]]].
    + injection H as <- <-. now constructor.
    + injection H as <- <-. constructor.
    + injection H as <- <-. unfold scan_val. destruct (bscan b) eqn:K; now constructor.
    + destruct (bkind b) eqn:K; cbn in H; destruct H as [H|[]] || destruct H; injection H as <- <-; now constructor.
    + destruct (truthy (bmarked b)) eqn:K; cbn in H; [destruct H as [H|[]]|destruct H]. injection H as <- <-. constructor. intros F. apply truthy_falsy in F. congruence.
    + destruct (bspan b) eqn:K; cbn in H; [destruct H as [H|[]]|destruct H]. injection H as <- <-. now constructor.
  - intros H. destruct H as [m Hm| |l Hl|Hl|Hk|Hk|Hm|sp Hs].
    + left. left. congruence.
    + left. right. now left.
    + left. right. right. left. now rewrite Hl.
    + left. right. right. left. now rewrite Hl.
    + right. left. rewrite Hk. now left.
    + right. left. rewrite Hk. now left.
    + right. right. left. destruct (truthy (bmarked b)) eqn:K; [now left|]. elim Hm. now apply truthy_falsy.
    + right. right. right. rewrite Hs. now left.
Qed.
