(** Common vocabulary: decidable equality, exceptions as values, Python
    dictionaries as insertion ordered association lists, Python frozensets of
    names as canonical lists.  Nothing in this file is specific to lulua. *)
From Coq Require Export List Arith NArith ZArith Lia Bool String Ascii Permutation Sorted.
From Coq Require Export ZifyBool ZifyNat ZifyN.
From Coq Require Import Eqdep_dec.
Export ListNotations.
Global Open Scope list_scope.

(** * Decidable equality *)
Class EqDec (A : Type) := { eqb : A -> A -> bool; eqb_eq : forall x y, eqb x y = true <-> x = y }.

Lemma eqb_refl {A} `{EqDec A} (x : A) : eqb x x = true.
Proof. apply eqb_eq; reflexivity. Qed.
Lemma eqb_neq {A} `{EqDec A} (x y : A) : eqb x y = false <-> x <> y.
Proof.
  split; intros E.
  - intros ->. rewrite eqb_refl in E; discriminate.
  - destruct (eqb x y) eqn:F; [apply eqb_eq in F; contradiction|reflexivity].
Qed.
Lemma eqb_spec {A} `{EqDec A} (x y : A) : reflect (x = y) (eqb x y).
Proof.
  destruct (eqb x y) eqn:E; constructor; [now apply eqb_eq|now apply eqb_neq].
Qed.
Lemma eqb_sym {A} `{EqDec A} (x y : A) : eqb x y = eqb y x.
Proof. destruct (eqb_spec x y), (eqb_spec y x); congruence. Qed.
Definition eq_dec {A} `{EqDec A} (x y : A) : {x = y} + {x <> y}.
Proof. destruct (eqb_spec x y); [left|right]; assumption. Defined.

#[global] Instance EqDec_N : EqDec N := {| eqb := N.eqb; eqb_eq := N.eqb_eq |}.
#[global] Instance EqDec_Z : EqDec Z := {| eqb := Z.eqb; eqb_eq := Z.eqb_eq |}.
#[global] Instance EqDec_nat : EqDec nat := {| eqb := Nat.eqb; eqb_eq := Nat.eqb_eq |}.
#[global] Instance EqDec_string : EqDec string := {| eqb := String.eqb; eqb_eq := String.eqb_eq |}.
#[global] Instance EqDec_bool : EqDec bool := {| eqb := Bool.eqb; eqb_eq := Bool.eqb_true_iff |}.
#[global] Instance EqDec_unit : EqDec unit.
Proof. refine {| eqb := fun _ _ => true |}. intros [] []; tauto. Defined.

Definition prod_eqb {A B} `{EqDec A} `{EqDec B} (p q : A * B) : bool :=
  eqb (fst p) (fst q) && eqb (snd p) (snd q).
#[global] Instance EqDec_prod {A B} `{EqDec A} `{EqDec B} : EqDec (A * B).
Proof.
  refine {| eqb := prod_eqb |}. intros [a b] [c d]; unfold prod_eqb; cbn.
  rewrite andb_true_iff, !eqb_eq. split; [intros [-> ->]|intros E; inversion E]; auto.
Defined.
Fixpoint list_eqb {A} `{EqDec A} (l m : list A) : bool :=
  match l, m with
  | [], [] => true
  | x :: l', y :: m' => eqb x y && list_eqb l' m'
  | _, _ => false
  end.
#[global] Instance EqDec_list {A} `{EqDec A} : EqDec (list A).
Proof.
  refine {| eqb := list_eqb |}.
  induction x as [|x l IH]; intros [|y m]; cbn; try (split; congruence).
  rewrite andb_true_iff, eqb_eq, IH. split; [intros [-> ->]|intros E; inversion E]; auto.
Defined.
Definition option_eqb {A} `{EqDec A} (p q : option A) : bool :=
  match p, q with Some a, Some b => eqb a b | None, None => true | _, _ => false end.
#[global] Instance EqDec_option {A} `{EqDec A} : EqDec (option A).
Proof.
  refine {| eqb := option_eqb |}. intros [a|] [b|]; cbn; try (split; congruence).
  rewrite eqb_eq. split; congruence.
Defined.

(** Equality on the image of an injection. *)
Definition EqDec_inj {A B} `{EqDec B} (f : A -> B) (Hf : forall x y, f x = f y -> x = y) : EqDec A.
Proof.
  refine {| eqb := fun x y => eqb (f x) (f y) |}.
  intros x y. rewrite eqb_eq. split; [apply Hf|congruence].
Defined.

Fixpoint mem {A} `{EqDec A} (x : A) (l : list A) : bool :=
  match l with [] => false | y :: l' => eqb x y || mem x l' end.
Lemma mem_In {A} `{EqDec A} (x : A) l : mem x l = true <-> In x l.
Proof.
  induction l as [|y l IH]; cbn; [split; [discriminate|tauto]|].
  rewrite orb_true_iff, eqb_eq, IH. intuition congruence.
Qed.
Lemma mem_nIn {A} `{EqDec A} (x : A) l : mem x l = false <-> ~ In x l.
Proof.
  rewrite <- mem_In. destruct (mem x l); split; congruence.
Qed.

Fixpoint nodupb {A} `{EqDec A} (l : list A) : bool :=
  match l with [] => true | x :: l' => negb (mem x l') && nodupb l' end.
Lemma nodupb_NoDup {A} `{EqDec A} (l : list A) : nodupb l = true <-> NoDup l.
Proof.
  induction l as [|x l IH]; cbn; [split; auto using NoDup_nil|].
  rewrite andb_true_iff, negb_true_iff, IH, mem_nIn.
  split; [intros [? ?]; constructor; auto|intros E; inversion E; auto].
Qed.

(** Number of occurrences. *)
Fixpoint count {A} `{EqDec A} (x : A) (l : list A) : Z :=
  match l with [] => 0 | y :: l' => (if eqb x y then 1 else 0) + count x l' end%Z.
Lemma count_app {A} `{EqDec A} (x : A) l m : count x (l ++ m) = (count x l + count x m)%Z.
Proof. induction l as [|y l IH]; cbn [count app]; lia. Qed.
Lemma count_nonneg {A} `{EqDec A} (x : A) l : (0 <= count x l)%Z.
Proof. induction l as [|y l IH]; cbn [count]; [lia|destruct (eqb x y); lia]. Qed.
Lemma count_pos {A} `{EqDec A} (x : A) l : (0 < count x l)%Z <-> In x l.
Proof.
  induction l as [|y l IH]; cbn [count In]; [lia|].
  pose proof (count_nonneg x l). destruct (eqb_spec x y) as [->|Hn].
  - split; [auto|lia].
  - rewrite Z.add_0_l, IH. intuition congruence.
Qed.
Lemma count_Permutation {A} `{EqDec A} (x : A) l m : Permutation l m -> count x l = count x m.
Proof. induction 1; cbn [count]; lia. Qed.

(** * Exceptions as values *)
Inductive exn :=
  | KeyError | ValueError | AssertionError | IndexError | TypeError
  | ZeroDivisionError | StopIteration | AttributeError | OutOfFuel | PlainException.
Definition exn_code (e : exn) : N :=
  match e with
  | KeyError => 0 | ValueError => 1 | AssertionError => 2 | IndexError => 3 | TypeError => 4
  | ZeroDivisionError => 5 | StopIteration => 6 | AttributeError => 7 | OutOfFuel => 8 | PlainException => 9
  end.
#[global] Instance EqDec_exn : EqDec exn.
Proof. apply (EqDec_inj exn_code). intros [] []; cbn; congruence. Defined.

Inductive res (A : Type) := Ok (a : A) | Raise (e : exn).
Arguments Ok {A} a.
Arguments Raise {A} e.
Definition bind {A B} (m : res A) (f : A -> res B) : res B :=
  match m with Ok a => f a | Raise e => Raise e end.
Notation "'do' x <- m ; f" := (bind m (fun x => f))
  (at level 200, x pattern, m at level 100, f at level 200, right associativity).
Definition res_map {A B} (f : A -> B) (m : res A) : res B :=
  match m with Ok a => Ok (f a) | Raise e => Raise e end.
Definition is_ok {A} (m : res A) : bool := match m with Ok _ => true | Raise _ => false end.
Definition assert_ (b : bool) : res unit := if b then Ok tt else Raise AssertionError.
Definition of_opt {A} (e : exn) (o : option A) : res A :=
  match o with Some a => Ok a | None => Raise e end.

(** Left-to-right evaluation with possible exceptions. *)
Fixpoint mapM {A B} (f : A -> res B) (l : list A) : res (list B) :=
  match l with
  | [] => Ok []
  | x :: l' => do y <- f x; do ys <- mapM f l'; Ok (y :: ys)
  end.
Fixpoint foldM {A S} (f : S -> A -> res S) (l : list A) (s : S) : res S :=
  match l with
  | [] => Ok s
  | x :: l' => do s' <- f s x; foldM f l' s'
  end.
Lemma foldM_app {A S} (f : S -> A -> res S) l m s :
  foldM f (l ++ m) s = (do s' <- foldM f l s; foldM f m s').
Proof.
  revert s; induction l as [|x l IH]; intros s; cbn; [reflexivity|].
  destruct (f s x); cbn; auto.
Qed.
Lemma Forall2_length {A B} (P : A -> B -> Prop) l r : Forall2 P l r -> List.length l = List.length r.
Proof. induction 1; cbn; congruence. Qed.
Lemma mapM_Ok_inv {A B} (f : A -> res B) l r :
  mapM f l = Ok r -> Forall2 (fun x y => f x = Ok y) l r.
Proof.
  revert r; induction l as [|x l IH]; cbn; intros r E; [inversion E; constructor|].
  destruct (f x) as [y|] eqn:Ex; cbn in E; [|discriminate].
  destruct (mapM f l) as [ys|] eqn:El; cbn in E; [|discriminate].
  inversion E; subst. constructor; auto.
Qed.
Lemma mapM_Ok {A B} (f : A -> res B) l r :
  Forall2 (fun x y => f x = Ok y) l r -> mapM f l = Ok r.
Proof.
  induction 1 as [|x y l r E _ IH]; cbn; [reflexivity|]. rewrite E; cbn. rewrite IH; reflexivity.
Qed.
Lemma mapM_total {A B} (f : A -> res B) (g : A -> B) l :
  (forall x, In x l -> f x = Ok (g x)) -> mapM f l = Ok (map g l).
Proof.
  induction l as [|x l IH]; cbn; intros Hf; [reflexivity|].
  rewrite Hf by auto; cbn. rewrite IH by auto; reflexivity.
Qed.
Lemma mapM_Raise_inv {A B} (f : A -> res B) l e :
  mapM f l = Raise e -> exists x, In x l /\ f x = Raise e.
Proof.
  induction l as [|x l IH]; cbn; intros E; [discriminate|].
  destruct (f x) as [y|] eqn:Ex; cbn in E; [|inversion E; subst; eauto].
  destruct (mapM f l) as [ys|] eqn:El; cbn in E; [discriminate|].
  destruct (IH E) as (z & Hz & Fz); eauto.
Qed.

(** * Dictionaries: insertion ordered association lists *)
Section Dict.
  Context {K V : Type} `{EqDec K}.
  Definition dict_ := list (K * V).
  Fixpoint dget (d : list (K * V)) (k : K) : option V :=
    match d with
    | [] => None
    | (k', v) :: d' => if eqb k k' then Some v else dget d' k
    end.
  (** [d[k] = v]: keeps the position of an existing key, appends otherwise. *)
  Fixpoint dset (d : list (K * V)) (k : K) (v : V) : list (K * V) :=
    match d with
    | [] => [(k, v)]
    | (k', v') :: d' => if eqb k k' then (k', v) :: d' else (k', v') :: dset d' k v
    end.
  Fixpoint ddel (d : list (K * V)) (k : K) : list (K * V) :=
    match d with
    | [] => []
    | (k', v') :: d' => if eqb k k' then d' else (k', v') :: ddel d' k
    end.
  Definition dhas (d : list (K * V)) (k : K) : bool :=
    match dget d k with Some _ => true | None => false end.
  Definition dkeys (d : list (K * V)) : list K := map fst d.
  Definition dvals (d : list (K * V)) : list V := map snd d.
  Definition dgetM (d : list (K * V)) (k : K) : res V := of_opt KeyError (dget d k).
  Definition dict_wf (d : list (K * V)) : Prop := NoDup (dkeys d).
  (** [dict(pairs)] *)
  Definition dict_of (l : list (K * V)) : list (K * V) :=
    fold_left (fun d kv => dset d (fst kv) (snd kv)) l [].

  Lemma dget_dset d k v k' : dget (dset d k v) k' = if eqb k' k then Some v else dget d k'.
  Proof.
    induction d as [|[a b] d IH]; cbn; [reflexivity|].
    destruct (eqb_spec k a) as [->|Hn]; cbn.
    - destruct (eqb k' a); reflexivity.
    - rewrite IH. destruct (eqb_spec k' a) as [->|]; [|reflexivity].
      destruct (eqb_spec a k); congruence.
  Qed.
  Lemma dget_dset_same d k v : dget (dset d k v) k = Some v.
  Proof. rewrite dget_dset, eqb_refl; reflexivity. Qed.
  Lemma dget_In d k v : dget d k = Some v -> In (k, v) d.
  Proof.
    induction d as [|[a b] d IH]; cbn; [discriminate|].
    destruct (eqb_spec k a) as [->|]; [intros E; inversion E; auto|auto].
  Qed.
  Lemma dget_None d k : dget d k = None <-> ~ In k (dkeys d).
  Proof.
    induction d as [|[a b] d IH]; cbn; [tauto|].
    destruct (eqb_spec k a) as [->|]; [split; [discriminate|intros Hn; exfalso; auto]|].
    rewrite IH. intuition congruence.
  Qed.
  Lemma dget_key d k : In k (dkeys d) <-> exists v, dget d k = Some v.
  Proof.
    destruct (dget d k) as [v|] eqn:E.
    - split; [eauto|]. intros _. apply dget_In in E. apply in_map with (f := fst) in E. exact E.
    - split; [|intros [v Hv]; discriminate]. intros Hi. apply dget_None in E. contradiction.
  Qed.
  Lemma dhas_key d k : dhas d k = true <-> In k (dkeys d).
  Proof.
    unfold dhas. rewrite dget_key. destruct (dget d k) as [v|]; split; eauto.
    - discriminate.
    - intros [v Hv]; discriminate.
  Qed.
  Lemma dget_In_iff d k v : dict_wf d -> (dget d k = Some v <-> In (k, v) d).
  Proof.
    intros Hwf; split; [apply dget_In|].
    induction d as [|[a b] d IH]; cbn; [tauto|].
    inversion Hwf as [|? ? Hni Hwf']; subst.
    intros [E|Hi]; [inversion E; subst; rewrite eqb_refl; reflexivity|].
    destruct (eqb_spec k a) as [->|]; [|auto].
    exfalso; apply Hni. apply in_map with (f := fst) in Hi; exact Hi.
  Qed.
  Lemma dkeys_dset d k v : dkeys (dset d k v) = if dhas d k then dkeys d else dkeys d ++ [k].
  Proof.
    unfold dhas, dkeys. induction d as [|[a b] d IH]; cbn; [reflexivity|].
    destruct (eqb_spec k a) as [->|]; cbn; [reflexivity|].
    rewrite IH. destruct (dget d k); reflexivity.
  Qed.
  Lemma In_dkeys_dset d k v x : In x (dkeys (dset d k v)) <-> x = k \/ In x (dkeys d).
  Proof.
    rewrite dkeys_dset. destruct (dhas d k) eqn:E.
    - apply dhas_key in E. intuition congruence.
    - rewrite in_app_iff; cbn. intuition congruence.
  Qed.
  Lemma dset_wf d k v : dict_wf d -> dict_wf (dset d k v).
  Proof.
    unfold dict_wf. rewrite dkeys_dset. destruct (dhas d k) eqn:E; [auto|].
    intros Hd. apply Permutation_NoDup with (l := k :: dkeys d).
    - apply Permutation_cons_append.
    - constructor; [|exact Hd]. intros Hi. apply dhas_key in Hi. congruence.
  Qed.
  Lemma ddel_wf d k : dict_wf d -> dict_wf (ddel d k).
  Proof.
    unfold dict_wf. induction d as [|[a b] d IH]; cbn; [auto|].
    intros Hd; inversion Hd as [|? ? Hni Hd']; subst.
    destruct (eqb k a); [exact Hd'|]. cbn. constructor; [|auto].
    intros Hi; apply Hni. clear - Hi. induction d as [|[x y] d IH]; cbn in *; [exact Hi|].
    destruct (eqb k x); cbn in *; intuition.
  Qed.
  Lemma dget_ddel d k k' : dict_wf d -> dget (ddel d k) k' = if eqb k' k then None else dget d k'.
  Proof.
    unfold dict_wf. induction d as [|[a b] d IH]; cbn; intros Hd; [destruct (eqb k' k); reflexivity|].
    inversion Hd as [|? ? Hni Hd']; subst.
    destruct (eqb_spec k a) as [->|Hn].
    - destruct (eqb_spec k' a) as [Ea|]; [|reflexivity]. rewrite Ea. apply dget_None; exact Hni.
    - cbn. rewrite IH by assumption. destruct (eqb_spec k' a) as [Ea|]; [|reflexivity].
      destruct (eqb_spec k' k); congruence.
  Qed.
  Lemma dict_wf_nil : dict_wf [].
  Proof. constructor. Qed.
  Lemma dict_of_fold_wf l d : dict_wf d ->
    dict_wf (fold_left (fun d kv => dset d (fst kv) (snd kv)) l d).
  Proof. revert d; induction l as [|[k v] l IH]; cbn; intros d Hd; [exact Hd|apply IH, dset_wf, Hd]. Qed.
  Lemma dict_of_wf l : dict_wf (dict_of l).
  Proof. apply dict_of_fold_wf, dict_wf_nil. Qed.
  Lemma dget_app d1 d2 k : dget (d1 ++ d2) k = match dget d1 k with Some v => Some v | None => dget d2 k end.
  Proof.
    induction d1 as [|[a b] d1 IH]; cbn; [reflexivity|]. destruct (eqb k a); auto.
  Qed.
  Lemma dict_of_fold_get l d k :
    dget (fold_left (fun d kv => dset d (fst kv) (snd kv)) l d) k =
    match dget (rev l) k with Some v => Some v | None => dget d k end.
  Proof.
    revert d; induction l as [|[a b] l IH]; cbn; intros d; [reflexivity|].
    rewrite IH, dget_app, dget_dset. destruct (dget (rev l) k); [reflexivity|].
    cbn. destruct (eqb k a); reflexivity.
  Qed.
  (** The last binding of a key wins. *)
  Lemma dget_dict_of l k : dget (dict_of l) k = dget (rev l) k.
  Proof. unfold dict_of. rewrite dict_of_fold_get; cbn. destruct (dget (rev l) k); reflexivity. Qed.
  Lemma dict_of_id d : dict_wf d -> dict_of d = d.
  Proof.
    unfold dict_of. intros Hd.
    assert (G : forall l e, dict_wf (e ++ l) ->
      fold_left (fun d kv => dset d (fst kv) (snd kv)) l e = e ++ l).
    { induction l as [|[k v] l IH]; cbn; intros e He; [now rewrite app_nil_r|].
      assert (Hs : dset e k v = e ++ [(k, v)]).
      { assert (Hk : ~ In k (dkeys e)).
        { unfold dict_wf, dkeys in He. rewrite map_app in He; cbn in He.
          apply NoDup_remove_2 in He. intros Hi; apply He, in_app_iff; auto. }
        clear - Hk. induction e as [|[a b] e IH]; cbn in *; [reflexivity|].
        destruct (eqb_spec k a); [exfalso; intuition congruence|]. rewrite IH by tauto. reflexivity. }
      rewrite Hs, IH; rewrite <- app_assoc; auto. }
    apply (G d []). exact Hd.
  Qed.
End Dict.

(** Counter dictionaries ([defaultdict(int)]). *)
Section Counter.
  Context {K : Type} `{EqDec K}.
  Definition cget (d : list (K * Z)) (k : K) : Z := match dget d k with Some n => n | None => 0%Z end.
  (** [d[k] += n] *)
  Definition cadd (d : list (K * Z)) (k : K) (n : Z) : list (K * Z) := dset d k (cget d k + n)%Z.
  Definition cinc d k := cadd d k 1%Z.
  Lemma cget_cadd d k n k' : cget (cadd d k n) k' = (cget d k' + (if eqb k' k then n else 0))%Z.
  Proof.
    unfold cadd, cget at 1. rewrite dget_dset. destruct (eqb_spec k' k) as [->|]; [reflexivity|].
    unfold cget; lia.
  Qed.
  Lemma cadd_wf d k n : dict_wf d -> dict_wf (cadd d k n).
  Proof. apply dset_wf. Qed.
  Lemma In_dkeys_cadd d k n x : In x (dkeys (cadd d k n)) <-> x = k \/ In x (dkeys d).
  Proof. apply In_dkeys_dset. Qed.
  Definition ctotal (d : list (K * Z)) : Z := fold_right Z.add 0%Z (dvals d).
  Lemma ctotal_dset d k v : ctotal (dset d k v) = (ctotal d - cget d k + v)%Z.
  Proof.
    unfold ctotal, cget. induction d as [|[a b] d IH]; cbn; [lia|].
    destruct (eqb k a); cbn; [lia|]. unfold dvals in *. lia.
  Qed.
  Lemma ctotal_cadd d k n : ctotal (cadd d k n) = (ctotal d + n)%Z.
  Proof. unfold cadd. rewrite ctotal_dset. lia. Qed.
End Counter.

(** * Strict total order on strings, for canonical sets *)
Fixpoint str_ltb (s t : string) : bool :=
  match s, t with
  | EmptyString, EmptyString => false
  | EmptyString, String _ _ => true
  | String _ _, EmptyString => false
  | String a s', String b t' =>
      N.ltb (N_of_ascii a) (N_of_ascii b) || (N.eqb (N_of_ascii a) (N_of_ascii b) && str_ltb s' t')
  end.
Lemma str_ltb_irrefl s : str_ltb s s = false.
Proof. induction s as [|a s IH]; cbn; [reflexivity|]. rewrite N.ltb_irrefl, N.eqb_refl; exact IH. Qed.
Lemma str_ltb_trans s t u : str_ltb s t = true -> str_ltb t u = true -> str_ltb s u = true.
Proof.
  revert t u; induction s as [|a s IH]; intros [|b t] [|c u]; cbn; try discriminate; auto.
  rewrite !orb_true_iff, !andb_true_iff, !N.ltb_lt, !N.eqb_eq.
  intros [A|[A A']] [B|[B B']]; [left|left|left|right]; try lia.
  split; [lia|eauto].
Qed.
Lemma str_ltb_total s t : str_ltb s t = true \/ s = t \/ str_ltb t s = true.
Proof.
  revert t; induction s as [|a s IH]; intros [|b t]; cbn; auto.
  rewrite !orb_true_iff, !andb_true_iff, !N.ltb_lt, !N.eqb_eq.
  destruct (N.lt_trichotomy (N_of_ascii a) (N_of_ascii b)) as [L|[E|L]]; auto.
  assert (a = b) as -> by (rewrite <- (ascii_N_embedding a), <- (ascii_N_embedding b); congruence).
  destruct (IH t) as [L|[->|L]]; auto.
Qed.

(** * Frozensets of names *)
Fixpoint ssorted (l : list string) : bool :=
  match l with
  | [] => true
  | x :: l' => match l' with [] => true | y :: _ => str_ltb x y end && ssorted l'
  end.
Record bset := mkbset { elems : list string; elems_sorted : ssorted elems = true }.
Fixpoint sins (x : string) (l : list string) : list string :=
  match l with
  | [] => [x]
  | y :: l' => if str_ltb x y then x :: l else if String.eqb x y then l else y :: sins x l'
  end.
Lemma sins_sorted x l : ssorted l = true -> ssorted (sins x l) = true.
Proof.
  induction l as [|y l IH]; intros Hs; [reflexivity|]. cbn [sins].
  destruct (str_ltb x y) eqn:L; [cbn [ssorted] in *; rewrite L; exact Hs|].
  destruct (String.eqb_spec x y) as [->|Hn]; [exact Hs|].
  cbn [ssorted] in Hs |- *. apply andb_true_iff in Hs as [Hh Ht]. rewrite IH by exact Ht.
  rewrite andb_true_r. destruct l as [|z l]; cbn.
  - destruct (str_ltb_total x y) as [E|[E|E]]; congruence.
  - destruct (str_ltb x z) eqn:L2; [|destruct (String.eqb x z); exact Hh].
    destruct (str_ltb_total x y) as [E|[E|E]]; congruence.
Qed.
Lemma sins_In x l y : In y (sins x l) <-> y = x \/ In y l.
Proof.
  induction l as [|z l IH]; cbn; [intuition|].
  destruct (str_ltb x z); [cbn; intuition|].
  destruct (String.eqb_spec x z) as [->|]; cbn; [intuition|]. rewrite IH. intuition.
Qed.
Fixpoint ssort (l : list string) : list string :=
  match l with [] => [] | x :: l' => sins x (ssort l') end.
Lemma ssort_sorted l : ssorted (ssort l) = true.
Proof. induction l; cbn; [reflexivity|]. apply sins_sorted; assumption. Qed.
Lemma ssort_In x l : In x (ssort l) <-> In x l.
Proof. induction l as [|y l IH]; cbn; [tauto|]. rewrite sins_In, IH. intuition. Qed.
(** Python's [frozenset(iterable)]. *)
Definition frozenset (l : list string) : bset := mkbset (ssort l) (ssort_sorted l).

Lemma ssorted_lt x l : ssorted (x :: l) = true -> forall y, In y l -> str_ltb x y = true.
Proof.
  revert x; induction l as [|z l IH]; intros x Hs y Hy; [destruct Hy|].
  cbn [ssorted] in Hs. apply andb_true_iff in Hs as [Hxz Hs]. destruct Hy as [->|Hy]; [exact Hxz|].
  eapply str_ltb_trans; [exact Hxz|]. apply IH; assumption.
Qed.
Lemma ssorted_tl x l : ssorted (x :: l) = true -> ssorted l = true.
Proof. cbn [ssorted]. rewrite andb_true_iff; tauto. Qed.
Lemma ssorted_NoDup l : ssorted l = true -> NoDup l.
Proof.
  induction l as [|x l IH]; intros Hs; constructor.
  - intros Hi. pose proof (ssorted_lt _ _ Hs _ Hi) as E. rewrite str_ltb_irrefl in E; discriminate.
  - apply IH, (ssorted_tl _ _ Hs).
Qed.
Lemma ssorted_ext l m : ssorted l = true -> ssorted m = true ->
  (forall x, In x l <-> In x m) -> l = m.
Proof.
  revert m; induction l as [|x l IH]; intros [|y m] Hl Hm E.
  - reflexivity.
  - destruct (proj2 (E y)); cbn; auto.
  - destruct (proj1 (E x)); cbn; auto.
  - assert (x = y) as ->.
    { destruct (proj1 (E x)) as [|Hx]; [cbn; auto|congruence|].
      destruct (proj2 (E y)) as [|Hy]; [cbn; auto|congruence|].
      pose proof (str_ltb_trans _ _ _ (ssorted_lt _ _ Hl _ Hy) (ssorted_lt _ _ Hm _ Hx)) as F.
      rewrite str_ltb_irrefl in F; discriminate. }
    f_equal. apply IH; [exact (ssorted_tl _ _ Hl)|exact (ssorted_tl _ _ Hm)|].
    intros z. pose proof (ssorted_NoDup _ Hl) as Nl. pose proof (ssorted_NoDup _ Hm) as Nm.
    inversion Nl; inversion Nm; subst. specialize (E z); cbn in E.
    split; intros Hz; [destruct (proj1 E (or_intror Hz))|destruct (proj2 E (or_intror Hz))]; congruence.
Qed.
Lemma bset_eq (s t : bset) : elems s = elems t -> s = t.
Proof.
  destruct s as [l Hl], t as [m Hm]; cbn. intros ->. f_equal. apply UIP_dec, bool_dec.
Qed.
Lemma bset_ext (s t : bset) : (forall x, In x (elems s) <-> In x (elems t)) -> s = t.
Proof. intros E. apply bset_eq, ssorted_ext; auto using elems_sorted. Qed.
#[global] Instance EqDec_bset : EqDec bset := EqDec_inj elems bset_eq.
Lemma In_frozenset x l : In x (elems (frozenset l)) <-> In x l.
Proof. apply ssort_In. Qed.
Lemma frozenset_elems s : frozenset (elems s) = s.
Proof. apply bset_ext. intros x. apply In_frozenset. Qed.
Lemma frozenset_ext l m : (forall x, In x l <-> In x m) <-> frozenset l = frozenset m.
Proof.
  split.
  - intros E. apply bset_ext. intros x. rewrite !In_frozenset. apply E.
  - intros E x. rewrite <- (In_frozenset x l), <- (In_frozenset x m), E. tauto.
Qed.
Lemma bset_NoDup s : NoDup (elems s).
Proof. apply ssorted_NoDup, elems_sorted. Qed.
Definition bempty : bset := frozenset [].
Lemma frozenset_Permutation l : NoDup l -> Permutation (elems (frozenset l)) l.
Proof.
  intros Hl. apply NoDup_Permutation; [apply bset_NoDup|exact Hl|]. intros x; apply In_frozenset.
Qed.

(** * Strings of code points *)
Definition text := list N.
Fixpoint is_prefix {A} `{EqDec A} (p l : list A) : bool :=
  match p, l with
  | [], _ => true
  | x :: p', y :: l' => eqb x y && is_prefix p' l'
  | _ :: _, [] => false
  end.
Lemma is_prefix_app {A} `{EqDec A} (p l : list A) : is_prefix p l = true <-> exists r, l = p ++ r.
Proof.
  revert l; induction p as [|x p IH]; intros l; cbn.
  - split; [eauto|reflexivity].
  - destruct l as [|y l]; [split; [discriminate|intros [r Hr]; discriminate]|].
    rewrite andb_true_iff, eqb_eq, IH. split.
    + intros [-> [r ->]]; eauto.
    + intros [r Hr]; inversion Hr; subst; eauto.
Qed.
Lemma is_prefix_firstn {A} `{EqDec A} (p l : list A) n :
  is_prefix p (firstn n l) = true <-> is_prefix p l = true /\ (List.length p <= n \/ p = firstn (List.length p) (firstn n l) /\ List.length l <= n).
Proof.
  rewrite !is_prefix_app. split.
  - intros [r Hr]. split.
    + exists (r ++ skipn n l). rewrite app_assoc, <- Hr, firstn_skipn. reflexivity.
    + destruct (le_lt_dec (List.length p) n); [auto|]. exfalso.
      apply (f_equal (@List.length A)) in Hr. rewrite app_length, firstn_length in Hr. lia.
  - intros [[r ->] [Hle|[Hp Hl]]].
    + exists (firstn (n - List.length p) r). rewrite firstn_app, firstn_all2 by lia. reflexivity.
    + rewrite firstn_all2 by exact Hl. eauto.
Qed.
Lemma is_prefix_le {A} `{EqDec A} (p l : list A) : is_prefix p l = true -> List.length p <= List.length l.
Proof. rewrite is_prefix_app. intros [r ->]. rewrite app_length; lia. Qed.

Notation length := Datatypes.length.
Notation concat := List.concat.
