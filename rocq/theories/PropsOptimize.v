(** C33-C40: the layout optimizer *)
From Coq Require Import QArith SpecFloat.
From Verif Require Import Base KeyboardModel LayoutModel LayoutSpec LayoutProofs CarpalxModel CarpalxSpec CarpalxProofs
  CarpalxShipped OptModel OptSpec OptProofs OptEnergy OptLayout OptMain OptArgs
  DataKeyboard DataLayouts DataFingermap DataModels ShippedProofs.
Close Scope Q_scope.
Open Scope string_scope.
Open Scope list_scope.
Set Implicit Arguments.
Unset Strict Implicit.

Lemma bind_inv_opt {A B} (m : res A) (f : A -> res B) b : bind m f = Ok b -> exists a, m = Ok a /\ f a = Ok b.
Proof. destruct m; cbn; intros H; [eauto|discriminate H]. Qed.
Lemma eqb_false_intro {A} `{EqDec A} (a b : A) : a <> b -> eqb a b = false.
Proof. apply eqb_neq. Qed.

(** A small example: four keys on the main layer and a shift layer with two
    modifiers. *)
Definition kb4 : list string := ["Cl2"; "Cl3"; "Dl3"; "Bl1"].
Definition ls4 : list layer :=
  [mkLayer [frozenset []] [("Cl2", CText [97%N]); ("Cl3", CText [98%N]); ("Dl3", CText [99%N]); ("Bl1", CText [100%N])];
   mkLayer [frozenset ["El_shift"]; frozenset ["Er_shift"]] [("Cl2", CText [65%N]); ("Cl3", CText [66%N])]].
Definition L4 : layout := layout_new ls4.
Definition bm4 : bmap := initial_map L4 kb4 (fun _ => true).
(** A model with small numbers, as far as possible like mod01 *)
Definition small : params Qnum :=
  mkParams Qnum 1%Q 1%Q 1%Q 1%Q 1%Q 1%Q 1%Q 0%Q 1%Q 1%Q 2%Q (pHand mod01) [1; 1; 0; 1; 2]%Q (pFinger mod01) 1%Q 1%Q 1%Q
    [("Bl1", 5%Q); ("Cl2", 2%Q); ("Cl3", 3%Q); ("Dl3", 0%Q); ("El_shift", 4%Q); ("Er_shift", 4%Q)].
Definition mQ : model Qnum := shipped_model small comb_iter.
Definition low (b : string) : comb := mkComb (frozenset []) (frozenset [b]).
Definition up (b : string) : comb := mkComb (frozenset ["Er_shift"]) (frozenset [b]).
Definition stats4 : list (triad * Z) :=
  [([low "Dl3"; low "Dl3"; low "Dl3"], 1000%Z); ([low "Cl2"; low "Cl2"; up "Cl2"], 1%Z)].
Definition ts4 {nm : num} : list (triad * carrier nm) := map (fun tv => (fst tv, nofZ (snd tv))) stats4.
Definition o4 {nm : num} (pins : list pin) : optimizer nm :=
  match opt_new (nm:=nm) bm4 ts4 L4 pins with Ok o => o | Raise _ => mkOpt [] L4 [] [] [] end.
(** Random numbers from a list *)
Definition dice (l : list nat) (p : nat) : nat := nth p l 0.

(** * C36 *)
Section C36.
  Context {nm : num}.
  Notation T := (carrier nm).
  Context {C M : Type}.
  Variable mutate : C -> M -> nat -> res (C * M * T * nat).
  Variable thr : nat -> T.

  (** run() goes through the states an idealised annealer on values goes through
      (rejected mutations leave no trace), ends in its last state and returns the
      best one: a state reached with the energy returned, no state reached having
      less. *)
  Theorem C36_best_accepted n h r c m p s : strict nm -> holds h r c m ->
    anneal_run mutate thr n h r p = Ok s ->
    exists hist c' m' bc bm,
      walk mutate thr 0 n (c, m, nofZ 0) (nofZ 0) p hist (c', m', a_energy s) /\
      holds (a_heap s) (a_state s) c' m' /\ holds (a_heap s) (fst (a_best s)) bc bm /\
      In (bc, bm, snd (a_best s)) ((c, m, nofZ 0) :: hist) /\
      (forall x, In x ((c, m, nofZ 0) :: hist) -> ~ below (snd x) (snd (a_best s))).
  Proof.
    intros S H E. destruct (run_walk S H E) as (hist & c' & m' & bc & bm & W & Hf & Hb & Bi & Bm).
    exists hist, c', m', bc, bm. auto 10.
  Qed.
  (** Conversely run() does not fail where the idealised annealer does not. *)
  Theorem C36_runs n h r c m p hist fin : strict nm -> holds h r c m ->
    walk mutate thr 0 n (c, m, nofZ 0) (nofZ 0) p hist fin ->
    exists s, anneal_run mutate thr n h r p = Ok s.
  Proof. intros S. apply (walk_run S). Qed.
  (** The idealised annealer is deterministic. *)
  Theorem C36_deterministic i n cur dm p h1 f1 h2 f2 :
    walk mutate thr i n cur dm p h1 f1 -> walk mutate thr i n cur dm p h2 f2 -> h1 = h2 /\ f1 = f2.
  Proof. intros A B. exact (walk_fun A B). Qed.
  (** The result is never above the start. *)
  Theorem C36_never_positive n h r c m p s : strict nm -> holds h r c m ->
    anneal_run mutate thr n h r p = Ok s -> ~ below (nofZ 0 : T) (snd (a_best s)).
  Proof.
    intros S H E. destruct (C36_best_accepted S H E) as (hist & c' & m' & bc & bm & _ & _ & _ & _ & B).
    exact (B _ (or_introl eq_refl)).
  Qed.
End C36.
(** Both exact numbers and floating point numbers are ordered strictly. *)
Theorem C36_strict : strict Qnum /\ strict Fnum.
Proof. split; [exact strict_Q|exact strict_F]. Qed.

(** A walk on numbers: move to the next one of a list of scripted energies *)
Definition script (l : list Z) (c : unit) (m : Z) (p : nat) : res (unit * Z * carrier Qnum * nat) :=
  Ok (tt, nth p l 0%Z, inject_Z (nth p l 0%Z - m), S p).
Definition tenth (i : nat) : carrier Qnum := Qpower (1#10)%Q (Z.of_nat i).
Example C36_case :
  match anneal_run (script [-9; -10; 20; -9; -11]%Z) tenth 4 (mkHeap [tt] [0%Z]) (0, 0) 0 with
  | Ok s => (nth_error (hm (a_heap s)) (snd (a_state s)), a_energy s,
             nth_error (hm (a_heap s)) (snd (fst (a_best s))), snd (a_best s))
            = (Some (-10)%Z, inject_Z (-10), Some (-10)%Z, inject_Z (-10))
  | Raise _ => False
  end.
Proof. vm_compute. reflexivity. Qed.
Example C36_case2 :
  match anneal_run (script [-9; -10; 20; -10; -9]%Z) (fun _ => (1#2)%Q : carrier Qnum) 5 (mkHeap [tt] [0%Z]) (0, 0) 0 with
  | Ok s => (nth_error (hm (a_heap s)) (snd (a_state s)), a_energy s,
             nth_error (hm (a_heap s)) (snd (fst (a_best s))), snd (a_best s))
            = (Some (-9)%Z, inject_Z (-9), Some (-10)%Z, inject_Z (-10))
  | Raise _ => False
  end.
Proof. vm_compute. reflexivity. Qed.

(** * C33 and C34 *)
Section C33.
  Context {nm : num}.
  Variable o : optimizer nm.
  Variables (rnd : nat -> nat) (ord : list nat -> list nat) (fuel : nat).

  (** A mutation exchanges the targets of two keys and changes nothing else. *)
  Theorem C33_swap c bm p c' bm' d p' : mutate o rnd ord fuel c bm p = Ok (c', bm', d, p') ->
    exists a b ta tb, a <> b /\ goes bm a ta /\ goes bm b tb /\ goes bm' a tb /\ goes bm' b ta /\
      forall k, k <> a -> k <> b -> dget bm' k = dget bm k.
  Proof.
    intros E. destruct (mutate_Ok E) as (a & b & Ed & Es & _). destruct (draw_Ok Ed) as ((Ne & _) & _).
    unfold swap in Es. apply bind_Ok in Es as (ta & Ha & Es). apply bind_Ok in Es as (tb & Hb & Es). injection Es as <-.
    apply dgetM_Ok in Ha. apply dgetM_Ok in Hb. exists a, b, ta, tb. unfold goes.
    split; [exact Ne|]. split; [exact Ha|]. split; [exact Hb|].
    assert (Nba : b <> a) by congruence. pose proof (eqb_false_intro Nba) as Eb.
    rewrite !dget_dset, !eqb_refl, Eb. split; [reflexivity|]. split; [reflexivity|].
    intros k Na Nb. rewrite !dget_dset, (eqb_false_intro Na), (eqb_false_intro Nb). reflexivity.
  Qed.
  Theorem C33_mutation c bm p c' bm' d p' : dict_wf bm -> mutate o rnd ord fuel c bm p = Ok (c', bm', d, p') -> rearranged bm bm'.
  Proof. intros W E. exact (proj1 (mutate_good W (conj (rearranged_refl bm) (pins_kept_refl (o_pins o) bm)) E)). Qed.
  Theorem C33_randomize n bm p bm' p' : dict_wf bm -> randomize rnd fuel o n bm p = Ok (bm', p') -> rearranged bm bm'.
  Proof. intros W E. exact (proj1 (randomize_good W (conj (rearranged_refl bm) (pins_kept_refl (o_pins o) bm)) E)). Qed.

  (** Every state of every run: accepted, last and best *)
  Theorem C33_run thr n h r c bm p s : strict nm -> dict_wf bm -> holds h r c bm ->
    anneal_run (mutate o rnd ord fuel) thr n h r p = Ok s ->
    exists cf mf cb mb, holds (a_heap s) (a_state s) cf mf /\ holds (a_heap s) (fst (a_best s)) cb mb /\
      rearranged bm mf /\ rearranged bm mb /\ (one_to_one bm -> one_to_one mf /\ one_to_one mb).
  Proof.
    intros S W H E. destruct (C36_best_accepted S H E) as (hist & cf & mf & cb & mb & Wk & Hf & Hb & Bin & _).
    pose proof (walk_inv (P:=fun _ q => good o bm q) (fun c1 m1 p1 c2 m2 d p2 G Em => mutate_good W G Em) Wk
      (conj (rearranged_refl bm) (pins_kept_refl (o_pins o) bm))) as [Gh Gf]. cbn [fst snd] in Gf.
    assert (Gb : good o bm mb).
    { destruct Bin as [Eq|Bin]; [injection Eq as _ <- _; split; [apply rearranged_refl|apply pins_kept_refl]|].
      rewrite Forall_forall in Gh. apply (Gh _ Bin). }
    exists cf, mf, cb, mb. split; [exact Hf|]. split; [exact Hb|]. split; [apply Gf|]. split; [apply Gb|].
    intros One. split; (eapply rearranged_one; [|exact One]); [apply Gf|apply Gb].
  Qed.
  (** Also in states that are undone later *)
  Theorem C33_walk thr i n c bm e dm p hist fin : dict_wf bm ->
    walk (mutate o rnd ord fuel) thr i n (c, bm, e) dm p hist fin ->
    Forall (fun x => rearranged bm (snd (fst x))) (fin :: hist).
  Proof.
    intros W Wk. pose proof (walk_inv (P:=fun _ q => good o bm q) (fun c1 m1 p1 c2 m2 d p2 G Em => mutate_good W G Em) Wk
      (conj (rearranged_refl bm) (pins_kept_refl (o_pins o) bm))) as [Gh Gf]. constructor; [apply Gf|].
    eapply Forall_impl; [|exact Gh]. intros x G. apply G.
  Qed.

  Theorem C34_mutation c bm p c' bm' d p' : dict_wf bm -> mutate o rnd ord fuel c bm p = Ok (c', bm', d, p') ->
    (forall k, pinned (o_pins o) k -> dget bm' k = dget bm k) /\
    (forall i, pinned_layer (o_pins o) i -> stays bm i -> stays bm' i).
  Proof. intros W E. exact (proj2 (mutate_good W (conj (rearranged_refl bm) (pins_kept_refl (o_pins o) bm)) E)). Qed.
  Theorem C34_randomize n bm p bm' p' : dict_wf bm -> randomize rnd fuel o n bm p = Ok (bm', p') ->
    (forall k, pinned (o_pins o) k -> dget bm' k = dget bm k) /\
    (forall i, pinned_layer (o_pins o) i -> stays bm i -> stays bm' i).
  Proof. intros W E. exact (proj2 (randomize_good W (conj (rearranged_refl bm) (pins_kept_refl (o_pins o) bm)) E)). Qed.
  Theorem C34_run thr n h r c bm p s : strict nm -> dict_wf bm -> holds h r c bm ->
    anneal_run (mutate o rnd ord fuel) thr n h r p = Ok s ->
    exists cf mf cb mb, holds (a_heap s) (a_state s) cf mf /\ holds (a_heap s) (fst (a_best s)) cb mb /\
      forall m', m' = mf \/ m' = mb ->
        (forall k, pinned (o_pins o) k -> dget m' k = dget bm k) /\
        (forall i, pinned_layer (o_pins o) i -> stays bm i -> stays m' i).
  Proof.
    intros S W H E. destruct (C36_best_accepted S H E) as (hist & cf & mf & cb & mb & Wk & Hf & Hb & Bin & _).
    pose proof (walk_inv (P:=fun _ q => good o bm q) (fun c1 m1 p1 c2 m2 d p2 G Em => mutate_good W G Em) Wk
      (conj (rearranged_refl bm) (pins_kept_refl (o_pins o) bm))) as [Gh Gf]. cbn [fst snd] in Gf.
    assert (Gb : good o bm mb).
    { destruct Bin as [Eq|Bin]; [injection Eq as _ <- _; split; [apply rearranged_refl|apply pins_kept_refl]|].
      rewrite Forall_forall in Gh. apply (Gh _ Bin). }
    exists cf, mf, cb, mb. split; [exact Hf|]. split; [exact Hb|]. intros m' [->| ->]; [apply Gf|apply Gb].
  Qed.
End C33.
(** The initial map sends every mutable key of every layer to itself. *)
Theorem C33_initial ls kb isLetter : NoDup kb ->
  one_to_one (initial_map (layout_new ls) kb isLetter) /\
  forall k t, goes (initial_map (layout_new ls) kb isLetter) k t <->
    t = k /\ fst k < List.length ls /\ In (snd k) kb /\ isLetter (snd k) = true /\
    isModifier (layout_new ls) (frozenset [snd k]) = false.
Proof.
  intros N. split; [now apply initial_one|]. intros k t. rewrite (initial_goes ls isLetter N). unfold mutable_key.
  rewrite andb_true_iff, negb_true_iff. tauto.
Qed.
(** Mutations given on the command line keep it one-to-one. *)
Theorem C33_user_mutations kb ms bm bm' : one_to_one bm -> apply_mutations kb ms bm = Ok bm' -> rearranged bm bm' /\ one_to_one bm'.
Proof.
  intros O E. assert (R : rearranged bm bm') by (eapply mutations_rearranged; [apply O|exact E]).
  split; [exact R|]. exact (rearranged_one R O).
Qed.
(** They name buttons of the keyboard and keys of the map; layers are not counted from
    the end. *)
Theorem C33_user_keys kb ms bm bm' a b : apply_mutations kb ms bm = Ok bm' -> In (a, b) ms ->
  forall u, u = a \/ u = b -> (0 <= fst u)%Z /\ In (snd u) kb /\ In (Z.to_nat (fst u), snd u) (dkeys bm).
Proof.
  revert bm. induction ms as [|ab ms IH]; intros bm E I; [destruct I|]. unfold apply_mutations in E. cbn [foldM] in E. apply bind_inv_opt in E as (bm1 & E1 & E).
  apply bind_inv_opt in E1 as (x & Ex & E1). apply bind_inv_opt in E1 as (y & Ey & E1). unfold swap in E1. apply bind_inv_opt in E1 as (va & Eva & E1). apply bind_inv_opt in E1 as (vb & Evb & E1).
  assert (K : forall v x, user_key kb v = Ok x -> (0 <= fst v)%Z /\ In (snd v) kb /\ x = (Z.to_nat (fst v), snd v)).
  { clear. intros v x H. unfold user_key in H. apply bind_inv_opt in H as (k & Hk & H). unfold kfind in Hk. destruct (mem (snd v) kb) eqn:M; [|discriminate Hk].
    injection Hk as <-. apply mem_In in M. destruct (Z.ltb_spec (fst v) 0); [discriminate H|]. injection H as <-. auto. }
  assert (D : forall x v, dgetM bm x = Ok v -> In x (dkeys bm)).
  { clear. intros x v H. unfold dgetM in H. destruct (dget bm x) as [w|] eqn:G; [|discriminate H]. apply dget_In in G. unfold dkeys. apply in_map_iff. exists (x, w). auto. }
  destruct I as [->|I].
  - cbn [fst snd] in *. destruct (K _ _ Ex) as (A1 & A2 & A3), (K _ _ Ey) as (B1 & B2 & B3). intros u [-> | ->]; [rewrite <- A3|rewrite <- B3]; eauto.
  - intros u Hu. destruct (IH bm1 E I u Hu) as (C1 & C2 & C3). split; [exact C1|]. split; [exact C2|]. injection E1 as <-.
    rewrite !In_dkeys_dset in C3. destruct C3 as [-> |[-> |C3]]; eauto.
Qed.
(** Conversely to "keeps targets on that layer": nothing else comes there. *)
Theorem C34_nothing_enters bm i : one_to_one bm -> stays bm i -> forall k t, goes bm k t -> fst t = i -> fst k = i.
Proof. apply stays_closed. Qed.
(** The pins of the command line: exactly the buttons matching a pattern, and
    whole layers. *)
Theorem C34_expanded fnm kb pins i b :
  (pinned (expand_pins fnm kb pins) (i, b) <-> In b kb /\ exists pat, In (Z.of_nat i, Some pat) pins /\ fnm b pat = true) /\
  (pinned_layer (expand_pins fnm kb pins) i <-> In (Z.of_nat i, None) pins).
Proof.
  unfold pinned, pinned_layer, expand_pins. cbn [fst snd]. split; rewrite in_flat_map; split.
  - intros ([j [pat|]] & Hin & H); cbn [fst snd] in H.
    + apply in_map_iff in H as (k & [= <- <-] & Hk). apply filter_In in Hk as [Hk Hm]. eauto.
    + destruct H as [H|[]]. discriminate.
  - intros (Hb & pat & Hin & Hm). exists (Z.of_nat i, Some pat). split; [exact Hin|]. cbn [fst snd].
    apply in_map_iff. exists b. split; [reflexivity|]. now apply filter_In.
  - intros ([j [pat|]] & Hin & H); cbn [fst snd] in H.
    + apply in_map_iff in H as (k & H & _). discriminate.
    + destruct H as [[= <-]|[]]. exact Hin.
  - intros Hin. exists (Z.of_nat i, None). split; [exact Hin|]. left. reflexivity.
Qed.

Definition rob0 : robj Qnum := mkR mQ (nofZ 0) (nofZ 0).
(** Layer 0 pinned and Cl3 pinned on layer 1: random swaps, two draws are refused. *)
Definition pins4 : list pin := [(0%Z, None); (1%Z, Some "Cl3")].
Example C33_case : exists bm' p, randomize (dice [0; 1; 2; 5; 4; 6; 1; 3; 5; 7; 7; 4; 2; 0; 6; 7]) 50 (o4 (nm:=Qnum) pins4) 6 bm4 0 = Ok (bm', p) /\
  bm' <> bm4 /\ dget bm' (1, "Cl3") = Some (1, "Cl3") /\ map (fun kt => fst (snd kt)) bm' = [0; 0; 0; 0; 1; 1; 1; 1].
Proof. do 2 eexists. split; [vm_compute; reflexivity|]. split; [vm_compute; discriminate|]. split; reflexivity. Qed.
Example C33_case_hyps : one_to_one bm4 /\ dict_wf bm4 /\ stays bm4 0.
Proof.
  assert (O : one_to_one bm4) by (apply initial_one; apply nodupb_NoDup; reflexivity).
  split; [exact O|]. split; [apply O|]. intros k t E G.
  apply (initial_goes ls4 (kb:=kb4) (fun _ => true)) in G; [|apply nodupb_NoDup; reflexivity]. destruct G as [-> _]. exact E.
Qed.
(** Without "provided they start there" C34 would be false: a user mutation can
    place a key of another layer on a pinned layer. *)
Theorem C34_needs_start : exists bm', apply_mutations kb4 [((0%Z, "Cl2"), (1%Z, "Cl3"))] bm4 = Ok bm' /\
  exists k t, fst k = 0 /\ goes bm' k t /\ fst t <> 0.
Proof. eexists. split; [vm_compute; reflexivity|]. exists (0, "Cl2"), (1, "Cl3"). split; [reflexivity|]. split; [reflexivity|discriminate]. Qed.

(** * C37 *)
Section C37.
  Context {nm : num}.
  Variable o : optimizer nm.
  Variables (rnd : nat -> nat) (ord : list nat -> list nat).

  (** mutate leaves its loop iff some pair of draws is swappable... *)
  Theorem C37_loop_ends bm p : o_all o = dkeys bm ->
    (exists fuel r, draw o rnd fuel bm p = Ok r) <->
    (exists n a b, choice o rnd (p + 2 * n) = Ok a /\ choice o rnd (S (p + 2 * n)) = Ok b /\ swappable (o_pins o) bm a b).
  Proof.
    intros Ha. split.
    - intros (fuel & r & E). destruct (draw_conv E) as (n & a & b & _ & H). eauto.
    - intros (n & H). destruct (draw_some (n:=n) Ha H) as (fuel & r & _ & E). eauto.
  Qed.
  (** ...so if every pair is drawn again and again, it ends iff a swap exists. *)
  Definition fair : Prop := forall p a b, In a (o_all o) -> In b (o_all o) ->
    exists n, choice o rnd (p + 2 * n) = Ok a /\ choice o rnd (S (p + 2 * n)) = Ok b.
  Theorem C37_fair bm p : o_all o = dkeys bm -> fair ->
    ((exists fuel r, mutate_quick o rnd fuel bm p = Ok r) <->
     exists a b, In a (dkeys bm) /\ In b (dkeys bm) /\ swappable (o_pins o) bm a b).
  Proof.
    intros Ha F. split.
    - intros (fuel & r & E). unfold mutate_quick in E. apply bind_Ok in E as ([[a b] p'] & E & _).
      destruct (draw_Ok E) as (S & Ia & Ib). rewrite Ha in Ia, Ib. eauto.
    - intros (a & b & Ia & Ib & S). destruct (F p a b) as (n & H1 & H2); [rewrite Ha; auto..|].
      destruct (proj2 (C37_loop_ends p Ha) (ex_intro _ n (ex_intro _ a (ex_intro _ b (conj H1 (conj H2 S)))))) as (fuel & [[a' b'] p'] & E).
      exists fuel. unfold mutate_quick. rewrite E. cbn [bind]. destruct (draw_Ok E) as ((_ & _ & _ & ta & tb & Ga & Gb & _) & _).
      unfold swap, dgetM. unfold goes in Ga, Gb. rewrite Ga, Gb. cbn. eauto.
  Qed.
  (** If there is none, it never ends, whatever the random numbers. *)
  Theorem C37_stuck bm : o_all o = dkeys bm -> bm <> [] ->
    (forall a b, In a (dkeys bm) -> In b (dkeys bm) -> ~ swappable (o_pins o) bm a b) ->
    forall fuel p c, mutate o rnd ord fuel c bm p = Raise OutOfFuel /\ mutate_quick o rnd fuel bm p = Raise OutOfFuel.
  Proof.
    intros Ha Ne S fuel p c.
    assert (E : draw o rnd fuel bm p = Raise OutOfFuel).
    { apply draw_stuck; [exact Ha| |rewrite Ha; exact S]. rewrite Ha. destruct bm; [congruence|discriminate]. }
    unfold mutate, mutate_quick. rewrite E. split; reflexivity.
  Qed.
End C37.
(** For instance if everything is pinned, *)
Theorem C37_all_pinned {nm} (o : optimizer nm) rnd ord bm : o_all o = dkeys bm -> bm <> [] ->
  (forall k, In k (dkeys bm) -> pinned (o_pins o) k) ->
  forall fuel p c, mutate o rnd ord fuel c bm p = Raise OutOfFuel.
Proof.
  intros Ha Ne P fuel p c. refine (proj1 (C37_stuck rnd ord Ha Ne _ fuel p c)). intros a b Ia _ (_ & Na & _). apply Na, P, Ia.
Qed.
(** or only one key is not pinned, *)
Theorem C37_all_but_one_pinned {nm} (o : optimizer nm) rnd ord bm k0 : o_all o = dkeys bm -> bm <> [] ->
  (forall k, In k (dkeys bm) -> k = k0 \/ pinned (o_pins o) k) ->
  forall fuel p c, mutate o rnd ord fuel c bm p = Raise OutOfFuel.
Proof.
  intros Ha Ne P fuel p c. refine (proj1 (C37_stuck rnd ord Ha Ne _ fuel p c)). intros a b Ia Ib (N & Na & Nb & _).
  destruct (P a Ia) as [->|?]; [|contradiction]. destruct (P b Ib) as [->|?]; [|contradiction]. congruence.
Qed.
(** and with an empty map it fails. *)
Theorem C37_empty {nm} (o : optimizer nm) rnd ord fuel c p : o_all o = [] ->
  mutate o rnd ord (S fuel) c [] p = Raise IndexError.
Proof.
  intros E. unfold mutate. cbn [draw]. unfold choice. rewrite E. cbn [List.length]. destruct (rnd p mod 0); reflexivity.
Qed.
Example C37_case_ends : exists r, mutate_quick (o4 (nm:=Qnum) pins4) (dice [0; 0; 0; 5; 4; 5; 4; 6]) 4 bm4 0 = Ok r.
Proof. eexists. vm_compute. reflexivity. Qed.
Example C37_case_stuck : forall fuel p c, mutate (o4 (nm:=Qnum) [(0%Z, Some "Cl2"); (0%Z, Some "Cl3"); (0%Z, Some "Dl3"); (0%Z, None);
  (1%Z, Some "Cl2"); (1%Z, Some "Cl3"); (1%Z, Some "Dl3"); (1%Z, Some "Bl1")]) (fun p => p) (fun l => l) fuel c bm4 p = Raise OutOfFuel.
Proof.
  intros fuel p c; apply (@C37_all_but_one_pinned _ _ _ _ _ (0, "Bl1")); [vm_compute; reflexivity|discriminate|].
  intros k I. vm_compute in I. unfold pinned. destruct I as [<-|[<-|[<-|[<-|[<-|[<-|[<-|[<-|[]]]]]]]]]; vm_compute; tauto.
Qed.

(** * C35 *)
(** A new start computes the effort of the map... *)
Theorem C35_reset (o : optimizer Qnum) c bm c' : resetEnergy o c bm = Ok c' ->
  rmodel c' = rmodel c /\ costs (o_layout o) (o_triads o) (rmodel c) bm (reffort c').
Proof.
  intros E. destruct (reset_in_step E) as [I M]. split; [exact M|]. rewrite <- M. now apply in_step_costs.
Qed.
(** ...which is unique... *)
Theorem C35_costs_unique L ts m bm e e' : costs L ts m bm e -> costs L ts m bm e' -> (e == e')%Q.
Proof. intros A B. exact (costs_fun (o:=mkOpt (nm:=Qnum) ts L [] [] []) A B). Qed.
(** ...and after any sequence of mutations the value maintained incrementally is
    what a new start would compute, and the sum of the differences returned. *)
Inductive mutations (o : optimizer Qnum) (ord : list nat -> list nat) : robj Qnum -> bmap -> Q -> robj Qnum -> bmap -> Prop :=
  | mut_none c bm : mutations o ord c bm 0 c bm
  | mut_more c bm s c' bm' rnd fuel p c'' bm'' d p' : mutations o ord c bm s c' bm' ->
      mutate o rnd ord fuel c' bm' p = Ok (c'', bm'', d, p') -> mutations o ord c bm (s + (d : Q))%Q c'' bm''.
Theorem C35_incremental (bm0 : bmap) ts L pins (o : optimizer Qnum) ord c0 bm c s c' bm' :
  opt_new bm0 ts L pins = Ok o -> (forall l, Permutation (ord l) l) ->
  resetEnergy o c0 bm = Ok c -> mutations o ord c bm s c' bm' ->
  costs L ts (rmodel c0) bm' (reffort c') /\ (reffort c' == reffort c + s)%Q /\
  exists c2, resetEnergy o c' bm' = Ok c2 /\ (reffort c2 == reffort c')%Q.
Proof.
  intros Eo Ho Er Mu. destruct (opt_new_Ok Eo) as [Hs Heq]. destruct (reset_in_step Er) as [I M].
  assert (HL : o_layout o = L) by (rewrite Heq; reflexivity). assert (HT : o_triads o = ts) by (rewrite Heq; reflexivity).
  assert (K : in_step o c' bm' /\ rmodel c' = rmodel c /\ (reffort c' == reffort c + s)%Q).
  { clear Er. induction Mu as [|c bm s c' bm' rnd fuel p c'' bm'' d p' Mu IH Em].
    - split; [exact I|]. split; [reflexivity|]. apply Qadd_unit.
    - destruct (IH I M) as (I' & M' & E').
      assert (Hs' : stateToTriad (o_layout o) (o_triads o) = Ok (o_s2t o)) by (rewrite HL, HT; exact Hs).
      destruct (mutate_in_step Hs' Ho I' Em) as (I'' & M'' & D). split; [exact I''|]. split; [congruence|].
      exact (Q_track E' D). }
  destruct K as (I' & M' & E').
  assert (Cs : costs (o_layout o) (o_triads o) (rmodel c') bm' (reffort c')) by now apply in_step_costs.
  split; [rewrite <- HL, <- HT, <- M, <- M'; exact Cs|]. split; [exact E'|].
  assert (F : exists c2, resetEnergy o c' bm' = Ok c2).
  { apply reset_total. destruct I' as [Fi _]. apply Forall_forall. intros tv Hin. apply In_nth_error in Hin as [i Hi].
    assert (Hlt : i < List.length (o_triads o)) by (apply nth_error_Some; intros Hn; pose proof (eq_trans (eq_sym Hi) Hn); discriminate).
    destruct (Fi i Hlt) as (tv' & t & e & H1 & H2 & H3). pose proof (eq_trans (eq_sym Hi) H1) as Eq. injection Eq as <-. exists t, e. auto. }
  destruct F as [c2 E2]. exists c2. split; [exact E2|]. destruct (C35_reset E2) as [_ C2].
  exact (C35_costs_unique C2 Cs).
Qed.

(** The tool's plausibility checks never fail and no other exception occurs, if
    every recorded triad uses mutable keys and triads of mutable keys can be
    scored: the only way not to get a result is not finding a swap (C37). *)
Definition is_letter (b : string) : bool :=
  existsb (fun k => match kb_kind k with Letter => eqb (kb_name k) b | _ => false end)
          (flat_map (fun r => fst r ++ snd r) ibmpc105).
Lemma letters_priced b : is_letter b = true -> In b priced_names.
Proof.
  assert (E : forallb (fun k => match kb_kind k with Letter => mem (kb_name k) priced_names | _ => true end)
                      (flat_map (fun r => fst r ++ snd r) ibmpc105) = true) by (vm_compute; reflexivity).
  rewrite forallb_forall in E. unfold is_letter. rewrite existsb_exists. intros (k & Hk & H). specialize (E k Hk).
  destruct (kb_kind k); try discriminate. apply (proj1 (eqb_eq _ _)) in H. subst b. now apply mem_In.
Qed.
(** On the shipped data only the first assumption is left. *)
Theorem C35_checks_pass d (g : opt_args) (p : params Qnum) it fnm rnd ord ordm thr (tol : carrier Qnum) fuel stats bm0 e :
  In d all_layouts -> shipped_layers d <> [] -> p = mod01 \/ p = salvo ->
  (forall c, Permutation (it c) (elems (cmod c) ++ elems (cbtn c))) ->
  (forall l, Permutation (ord l) l) -> (forall s, Permutation (ordm s) (elems s)) -> (0 < (tol : Q))%Q ->
  apply_mutations kb_names (g_mutations g) (initial_map (layout_new (shipped_layers d)) kb_names is_letter) = Ok bm0 ->
  (forall tv, In tv stats -> List.length (fst tv) = 3 /\
     forall c, In c (fst tv) -> exists k, presses (shipped_layers d) c k /\ In (snd k) kb_names /\
       is_letter (snd k) = true /\ isModifier (layout_new (shipped_layers d)) (frozenset [snd k]) = false) ->
  optimize (nm:=Qnum) fnm is_letter rnd ord ordm thr tol fuel g (layout_new (shipped_layers d)) kb_names (shipped_model p it) stats = Raise e ->
  e = OutOfFuel.
Proof.
  intros Hd Hne Hp Hit Ho Hom Htol Hmut Htri E.
  destruct (shipped_facts d Hd) as (Wf & Dj & Lo & Inc).
  assert (Hkb : NoDup kb_names) by (apply nodupb_NoDup, kb_names_nodup).
  assert (Hmods : Forall (fun l => lmods l <> []) (shipped_layers d)).
  { assert (B : forallb (fun d => forallb (fun l => match lmods l with [] => false | _ => true end) (shipped_layers d)) all_layouts = true)
      by (vm_compute; reflexivity).
    rewrite forallb_forall in B. specialize (B d Hd). rewrite forallb_forall in B. apply Forall_forall. intros l Hl En.
    specialize (B l Hl). rewrite En in B. discriminate. }
  set (ls := shipped_layers d) in *.
  assert (Ini : forall k, In k (dkeys (initial_map (layout_new ls) kb_names is_letter)) <->
    fst k < List.length ls /\ In (snd k) kb_names /\ mutable_key (layout_new ls) is_letter (snd k) = true).
  { intros k. rewrite dget_key. split.
    - intros [t G]. apply (initial_goes ls is_letter Hkb) in G. tauto.
    - intros H. exists k. apply (initial_goes ls is_letter Hkb). tauto. }
  pose proof (mutations_rearranged (proj1 (initial_one ls is_letter Hkb)) Hmut) as [Rk _].
  assert (Keys : forall k, In k (dkeys bm0) <-> fst k < List.length ls /\ In (snd k) kb_names /\ mutable_key (layout_new ls) is_letter (snd k) = true)
    by (intros k; rewrite Rk; apply Ini).
  apply (optimize_raise Ho Hom (stats:=stats) Hkb Dj Hmods Htol Hmut) in E; [exact E| | | |].
  - (* nonempty *)
    assert (B : forallb (fun d => match shipped_layers d with [] => true | _ => mutable_key (layout_new (shipped_layers d)) is_letter "Dl3" end) all_layouts = true)
      by (vm_compute; reflexivity).
    rewrite forallb_forall in B. specialize (B d Hd). fold ls in B. destruct ls as [|l0 ls'] eqn:El; [congruence|].
    assert (I : In (0, "Dl3") (dkeys bm0)).
    { apply Keys. cbn [fst snd]. split; [cbn; lia|]. split; [|exact B]. apply mem_In. vm_compute. reflexivity. }
    intros ->. destruct I.
  - destruct Hp as [->| ->]; vm_compute; reflexivity.
  - intros tv Htv. destruct (Htri tv Htv) as [Hl Hc]. split; [exact Hl|]. intros c Ic.
    destruct (Hc c Ic) as (k & Pk & K1 & K2 & K3). exists k. split; [exact Pk|]. apply Keys.
    destruct Pk as (l & N & _). split; [apply nth_error_Some; congruence|]. split; [exact K1|].
    unfold mutable_key. rewrite K2, K3. reflexivity.
  - intros t Hl Hc. destruct t as [|c0 [|c1 [|c2 [|]]]]; try discriminate. apply triad_defined. intros c Ic.
    destruct (Hc c Ic) as (k & l & ms & Ik & Nk & Em & Eb).
    assert (Hb : forall b, In b (elems (cmod c) ++ elems (cbtn c)) -> In b priced_names).
    { intros b Ib. apply in_app_or in Ib as [Ib|Ib].
      - pose proof (shipped_priced d Hd l) as Lp. fold ls in Lp. specialize (Lp (nth_error_In _ _ Nk)).
        unfold layer_priced in Lp. apply andb_true_iff in Lp as [Lp _]. rewrite forallb_forall in Lp.
        apply (inclb_ok _ _ (Lp (cmod c) ltac:(rewrite Em; left; reflexivity))), Ib.
      - rewrite Eb, frozenset_single in Ib. destruct Ib as [<-|[]]. apply Keys in Ik as (_ & _ & Mk).
        unfold mutable_key in Mk. apply andb_true_iff in Mk as [Mk _]. now apply letters_priced. }
    cbn [miter shipped_model]. split.
    + intros En. pose proof (Hit c) as Pm. unfold shipped_model in En. cbn [miter] in En. rewrite En in Pm.
      apply Permutation_nil in Pm. rewrite Eb, frozenset_single in Pm. destruct (elems (cmod c)); discriminate.
    + intros b Ib. unfold shipped_model in Ib. cbn [miter] in Ib.
      apply (Permutation_in _ (Hit c)), Hb, (priced_names_ok (nm:=Qnum) it) in Ib. destruct Hp as [->| ->]; apply Ib.
Qed.
Example C35_case :
  match resetEnergy (o4 pins4) rob0 bm4 with
  | Ok c => match mutate (o4 pins4) (dice [0; 3]) (@rev nat) 5 c bm4 0 with
            | Ok (c', bm', d, _) => Qeq_bool (d : Q) 0 = false /\
                match resetEnergy (o4 pins4) c' bm' with Ok c2 => Qeq_bool (reffort c2) (reffort c') | Raise _ => false end = true
            | Raise _ => False end
  | Raise _ => False end.
Proof. vm_compute. split; reflexivity. Qed.
(** Triads with other keys do make the tool fail, e.g. the pinned space bar. *)
Theorem C35_needs_mutable : 
  optimize (fun a b => eqb a b) is_letter (dice []) (fun l => l) elems tenth (1#10000)%Q 20 (mkArgs 0 0 false [] [])
    (layout_new (shipped_layers data_ar_osx)) kb_names mQ [([low "Dl3"; low "Dl3"; low "Fl_space"], 1%Z)] = Raise KeyError.
Proof. vm_compute. reflexivity. Qed.

(** * C38 *)
(** The layers written: same modifiers, and each key with what the key sent
    there had.  Reading the file back gives a valid layout. *)
Theorem C38_written ordm ls kb bm : (forall s, Permutation (ordm s) (elems s)) -> mods_disjoint ls ->
  Forall (fun l => lmods l <> []) ls -> one_to_one bm -> Forall (fun k => fst k < List.length ls) (dkeys bm) ->
  exists out, new_layers ordm (layout_new ls) kb bm = Ok out /\
    map lmods (reread out) = map lmods ls /\
    (forall x v, says (reread out) x v <-> exists k, In (snd k) kb /\ sent bm k x /\ says ls k v) /\
    layers_wf (reread out) /\ mods_disjoint (reread out).
Proof.
  intros Ho Hd Hm H1 Hr. destruct (reread_ok kb Ho Hd Hm H1 Hr) as (out & E & Rel & W).
  exists out. split; [exact E|]. split; [apply Rel|]. split; [apply Rel|]. split; [exact W|].
  exact (@rel_disjoint _ _ _ _ Rel Hd).
Qed.
(** Nothing is overwritten or duplicated: keys are sent one-to-one. *)
Theorem C38_sent_one_to_one bm : one_to_one bm ->
  (forall k, exists t, sent bm k t) /\ (forall t, exists k, sent bm k t) /\
  (forall k t t', sent bm k t -> sent bm k t' -> t = t') /\ (forall k k' t, sent bm k t -> sent bm k' t -> k = k').
Proof.
  intros O. split; [intros k; exists (target bm k); apply target_sent|]. split; [intros t; now apply sent_onto|].
  split; [intros k t t' A B; now rewrite <- (sent_target A), <- (sent_target B)|]. intros k k' t. now apply sent_inj.
Qed.
(** The tool's output: pressing the replacement of a combination types what the
    combination typed, with any modifier of its layer; no text is lost or new. *)
Theorem C38_same_texts fnm isLetter rnd ord ordm thr (tol : carrier Qnum) fuel g ls kb m stats out e :
  (forall l, Permutation (ord l) l) -> (forall s, Permutation (ordm s) (elems s)) ->
  NoDup kb -> mods_disjoint ls -> Forall (fun l => lmods l <> []) ls -> layers_wf ls ->
  Forall (fun l => Forall (fun b => In b kb) (dkeys (llayout l))) ls ->
  optimize (nm:=Qnum) fnm isLetter rnd ord ordm thr tol fuel g (layout_new ls) kb m stats = Ok (out, e) ->
  exists best, one_to_one best /\ map lmods (reread out) = map lmods ls /\
    (forall i l md b j l' md' b', nth_error ls i = Some l -> In md (lmods l) ->
       nth_error (reread out) j = Some l' -> In md' (lmods l') -> In b kb -> sent best (i, b) (j, b') ->
       getText (layout_new (reread out)) (mkComb md' (frozenset [b'])) = getText (layout_new ls) (mkComb md (frozenset [b]))) /\
    (forall c c', Forall (fun b => In b kb) (elems (cbtn c)) -> mapButton (layout_new ls) best c = Ok c' ->
       getText (layout_new (reread out)) c' = getText (layout_new ls) c) /\
    (forall t, assigned (reread out) t <-> assigned ls t).
Proof.
  intros Ho Hom Hkb Hd Hm Hw Hin E.
  destruct (optimize_spec Ho Hom Hkb Hd Hm E) as (bm0 & start & best & fin & e0 & eb & _ & _ & One & _ & _ & _ & _ & Rel & W & _).
  exists best. split; [exact One|]. split; [apply Rel|]. split; [|split].
  - intros i l md b j l' md' b'. exact (rel_text Rel One Hd (i:=i) (l:=l) (m:=md) (b:=b) (j:=j) (l':=l') (m':=md') (b':=b')).
  - intros c c'. exact (rel_mapButton Rel One Hd (c:=c) (c':=c')).
  - intros t. now apply (rel_assigned Rel t Hw W).
Qed.
(** The map it is written for respects the pins. *)
Theorem C38_pins fnm isLetter rnd ord ordm thr (tol : carrier Qnum) fuel g ls kb m stats out e :
  (forall l, Permutation (ord l) l) -> (forall s, Permutation (ordm s) (elems s)) ->
  NoDup kb -> mods_disjoint ls -> Forall (fun l => lmods l <> []) ls -> g_mutations g = [] ->
  optimize (nm:=Qnum) fnm isLetter rnd ord ordm thr tol fuel g (layout_new ls) kb m stats = Ok (out, e) ->
  (forall i b pat v, In b kb -> In (Z.of_nat i, Some pat) (g_pins g) -> fnm b pat = true ->
     says (reread out) (i, b) v <-> says ls (i, b) v).
Proof.
  intros Ho Hom Hkb Hd Hm Hg E i b pat v Hb Hp Hf.
  destruct (optimize_spec Ho Hom Hkb Hd Hm E) as (bm0 & start & best & fin & e0 & eb & Em & _ & One & _ & Rb & _ & Pk & Rel & W & _).
  rewrite Hg in Em. cbn in Em. injection Em as <-.
  assert (Pin : pinned (expand_pins fnm kb (g_pins g)) (i, b)) by (apply C34_expanded; eauto).
  assert (S : sent best (i, b) (i, b)).
  { destruct Pk as [Pk _]. specialize (Pk _ Pin). destruct (dget best (i, b)) as [t|] eqn:G.
    - symmetry in Pk. apply (initial_goes ls isLetter Hkb) in Pk as [-> _]. now constructor.
    - apply sent_stays. now apply dget_None. }
  destruct Rel as [_ Rel]. rewrite Rel. split.
  - intros (k & _ & Sk & Sv). now rewrite <- (sent_inj One Sk S).
  - intros Sv. exists (i, b). auto.
Qed.
Example C38_case_hyps : NoDup kb4 /\ mods_disjoint ls4 /\ Forall (fun l => lmods l <> []) ls4 /\ layers_wf ls4 /\
  Forall (fun l => Forall (fun b => In b kb4) (dkeys (llayout l))) ls4.
Proof.
  split; [apply nodupb_NoDup; reflexivity|]. split; [apply mods_disjointb_ok; reflexivity|].
  split; [repeat constructor; discriminate|]. split; [apply layers_wfb_ok; reflexivity|].
  repeat (constructor; [repeat (constructor; [cbn; tauto|]); constructor|]). constructor.
Qed.
Example C38_case : exists out e, optimize (nm:=Qnum) (fun a b => eqb a b) (fun _ => true) (dice [5; 0; 3; 2]) (@rev nat) elems
    (fun _ => (1#1)%Q) (1#10000)%Q 5 (mkArgs 1 1 false [(1%Z, Some "Cl3")] []) L4 kb4 mQ [([low "Bl1"; low "Bl1"; low "Bl1"], 1%Z)] = Ok (out, e) /\
  map llayout (reread out) =
    [[("Cl2", CText [97%N]); ("Cl3", CText [98%N]); ("Bl1", CText [99%N]); ("Dl3", CText [100%N])];
     [("Cl2", CText [65%N]); ("Cl3", CText [66%N])]].
Proof. do 2 eexists. split; vm_compute; reflexivity. Qed.

(** * C39 *)
(** Typing the recorded triads' texts on another layout, with the only
    combinations that type them. *)
Definition retyped (L L' : layout) (c c' : comb) : Prop :=
  exists v, getText L c = Ok (CText v) /\ lookup L' v = Ok (v, [c']).
Definition effort_on (L L' : layout) (ts : list (triad * Q)) (m : model Qnum) (e : Q) : Prop :=
  exists l, Forall2 (fun tv tv' => Forall2 (retyped L L') (fst tv) (fst tv') /\ snd tv' = snd tv) ts l /\
    Forall (fun tv => scoreQ m (fst tv) <> None) l /\ (e == mean scoreQ m l)%Q.
Definition ls1 : list layer := [mkLayer [frozenset []] [("Cl2", CText [97%N]); ("Dl3", CText [98%N]); ("Bl1", CText [99%N])]].
Definition stats1 : list (triad * Z) :=
  [([low "Dl3"; low "Dl3"; low "Dl3"], 10000%Z); ([low "Cl2"; low "Cl2"; low "Cl2"], 1%Z)].
Definition g2 : opt_args := mkArgs 0 2 false [] [].
(** acceptDiff in a run with two steps: 10^(-0/2*6), 10^(-1/2*6) *)
Definition thousandth (i : nat) : carrier Qnum := Qpower (1#1000)%Q (Z.of_nat i).
(** A run with two steps: the first mutation is worse and rejected, the second one
    is slightly worse and accepted.  The layout printed is the input, the energy
    that of the last state. *)
Theorem C39_reported_energy_refuted : exists ls kb stats rnd out (e e' : Q),
  NoDup kb /\ mods_disjoint ls /\ Forall (fun l => lmods l <> []) ls /\ layers_wf ls /\
  optimize (nm:=Qnum) (fun a b => eqb a b) (fun _ => true) rnd (fun l => l) elems thousandth (1#10000)%Q 5 g2
    (layout_new ls) kb mQ stats = Ok (out, e) /\
  effort_on (layout_new ls) (layout_new (reread out)) (weighted g2 stats) mQ e' /\ (e' < e)%Q.
Proof.
  destruct (optimize (nm:=Qnum) (fun a b => eqb a b) (fun _ => true) (dice [1; 2; 0; 2]) (fun l => l) elems thousandth (1#10000)%Q 5 g2
    (layout_new ls1) ["Cl2"; "Dl3"; "Bl1"] mQ stats1) as [[out e]|ex] eqn:E.
  2: { assert (B : is_ok (optimize (nm:=Qnum) (fun a b => eqb a b) (fun _ => true) (dice [1; 2; 0; 2]) (fun l => l) elems thousandth (1#10000)%Q 5 g2
         (layout_new ls1) ["Cl2"; "Dl3"; "Bl1"] mQ stats1) = true) by (vm_compute; reflexivity). rewrite E in B. discriminate. }
  assert (B : match optimize (nm:=Qnum) (fun a b => eqb a b) (fun _ => true) (dice [1; 2; 0; 2]) (fun l => l) elems thousandth (1#10000)%Q 5 g2
    (layout_new ls1) ["Cl2"; "Dl3"; "Bl1"] mQ stats1 with
    | Ok (out, e) => (out, (mean scoreQ mQ (weighted g2 stats1) ?= e)%Q) =
        ([mkLD [[]] [("Cl2", CText [97%N]); ("Dl3", CText [98%N]); ("Bl1", CText [99%N])]], Lt)
    | Raise _ => False end) by (vm_compute; reflexivity).
  rewrite E in B. apply pair_equal_spec in B as [-> Lt].
  exists ls1, ["Cl2"; "Dl3"; "Bl1"], stats1, (dice [1; 2; 0; 2]), [mkLD [[]] (llayout (hd (mkLayer [] []) ls1))], e, (mean scoreQ mQ (weighted g2 stats1)).
  split; [apply nodupb_NoDup; reflexivity|]. split; [apply mods_disjointb_ok; reflexivity|].
  split; [repeat constructor; discriminate|]. split; [apply layers_wfb_ok; reflexivity|].
  split; [exact E|]. split.
  - exists (weighted g2 stats1). split; [|split].
    + repeat (constructor; [split; [|reflexivity]; repeat (constructor; [eexists; split; vm_compute; reflexivity|]); constructor|]). constructor.
    + repeat (constructor; [vm_compute; discriminate|]). constructor.
    + reflexivity.
  - exact Lt.
Qed.
(** What does hold: the number printed is the effort of the last state of the
    walk, an upper bound of the effort of the layout printed, which itself is at
    most the effort of the start. *)
Theorem C39_reported_energy_partial fnm isLetter rnd ord ordm thr (tol : carrier Qnum) fuel g ls kb m stats out e :
  (forall l, Permutation (ord l) l) -> (forall s, Permutation (ordm s) (elems s)) ->
  NoDup kb -> mods_disjoint ls -> Forall (fun l => lmods l <> []) ls ->
  optimize (nm:=Qnum) fnm isLetter rnd ord ordm thr tol fuel g (layout_new ls) kb m stats = Ok (out, e) ->
  exists start best fin e0 eb,
    rearranged start best /\ rearranged start fin /\ relabelled kb best ls (reread out) /\
    costs (layout_new ls) (weighted g stats) m start e0 /\
    costs (layout_new ls) (weighted g stats) m best eb /\
    costs (layout_new ls) (weighted g stats) m fin e /\ (eb <= e0)%Q /\ (eb <= e)%Q.
Proof.
  intros Ho Hom Hkb Hd Hm E.
  destruct (optimize_spec Ho Hom Hkb Hd Hm E) as (bm0 & start & best & fin & e0 & eb & _ & _ & _ & Rs & Rb & Rf & _ & Rel & _ & C0 & Cb & Cf & L0 & Lf).
  exists start, best, fin, e0, eb.
  assert (Sy : forall x, rearranged bm0 x -> rearranged start x).
  { intros x [A B]. destruct Rs as [A' B']. split; [congruence|]. eapply Permutation_trans; [exact B|]. now apply Permutation_sym. }
  repeat (split; [auto|]). exact Lf.
Qed.

(** * C40 *)
(** What a pin means *)
Inductive pin_says (int_ : text -> res Z) : text -> Z * option text -> Prop :=
  | says_layer p z : ~ In comma p -> int_ p = Ok z -> pin_says int_ p (z, None)
  | says_button q b z : ~ In comma q -> int_ q = Ok z -> pin_says int_ (q ++ comma :: b) (z, Some b).
Lemma pin1_spec int_ p x : pin1 int_ p = Ok x <-> pin_says int_ p x.
Proof.
  unfold pin1. destruct (first_sep comma p) as [H|(q & r & H & ->)].
  - rewrite (split_once_plain H). cbn [nth nth_error]. split.
    + intros E. apply bind_Ok in E as (z & E & [= <-]). now constructor.
    + intros S. inversion S as [p' z N E|q b z N E]; subst; [rewrite E; reflexivity|].
      exfalso. apply H, in_or_app. right. left. reflexivity.
  - rewrite (split_once_app r H). cbn [nth nth_error]. split.
    + intros E. apply bind_Ok in E as (z & E & [= <-]). now constructor.
    + intros S. inversion S as [p' z N E|q' b z N E Eq]; subst.
      * exfalso. apply N, in_or_app. right. left. reflexivity.
      * assert (Two : split_once comma (q' ++ comma :: b) = [q'; b]) by now apply split_once_app.
        rewrite Eq, (split_once_app r H) in Two. injection Two as <- <-. rewrite E. reflexivity.
Qed.
Theorem C40_parsePin int_ ps r : ps <> [] -> Forall (fun p => ~ In semicolon p) ps ->
  parsePin int_ (join semicolon ps) = Ok r ->
  NoDup r /\ (forall p, In p ps -> exists x, In x r /\ pin_says int_ p x) /\
  (forall x, In x r -> exists p, In p ps /\ pin_says int_ p x).
Proof.
  intros Ne F. unfold parsePin. rewrite split_on_parts by assumption. intros E. apply bind_Ok in E as (xs & E & [= <-]).
  apply mapM_Ok_inv in E. split; [apply set_of_NoDup; constructor|].
  assert (K : forall x, In x (fold_left (fun acc x => if mem x acc then acc else acc ++ [x]) xs []) <-> In x xs)
    by (intros x; rewrite set_of_In; cbn; tauto).
  split.
  - intros p Hp. induction E as [|p' x ps' xs' Hx E IH]; [destruct Hp|].
    destruct Hp as [->|Hp].
    + exists x. split; [apply K; left; reflexivity|]. now apply pin1_spec.
    + clear - IH K E Hx Hp Ne F. assert (Hex : exists x0, In x0 xs' /\ pin_says int_ p x0).
      { clear - E Hp. induction E as [|p' x ps' xs' Hx E IH]; [destruct Hp|]. destruct Hp as [->|Hp].
        - exists x. split; [left; reflexivity|]. now apply pin1_spec.
        - destruct (IH Hp) as (y & Hy & S). exists y. split; [right; exact Hy|exact S]. }
      destruct Hex as (y & Hy & S). exists y. split; [apply K; right; exact Hy|exact S].
  - intros x Hx. apply K in Hx. clear - E Hx. induction E as [|p' y ps' xs' Hy E IH]; [destruct Hx|]. destruct Hx as [->|Hx].
    + exists p'. split; [left; reflexivity|]. now apply pin1_spec.
    + destruct (IH Hx) as (p & Hp & S). exists p. split; [right; exact Hp|exact S].
Qed.
(** Every string is such a list, and it is accepted iff every layer is a number;
    otherwise int()'s exception results. *)
Theorem C40_parsePin_total int_ s : exists ps, ps <> [] /\ Forall (fun p => ~ In semicolon p) ps /\ s = join semicolon ps /\
  ((exists r, parsePin int_ s = Ok r) <-> forall p, In p ps -> exists x, pin_says int_ p x) /\
  (forall e, parsePin int_ s = Raise e -> exists p q, In p ps /\ (p = q \/ exists b, p = q ++ comma :: b) /\ int_ q = Raise e).
Proof.
  exists (split_on semicolon s). destruct (split_on_join semicolon s) as [J F].
  split; [apply split_on_nonempty|]. split; [exact F|]. split; [now symmetry|]. unfold parsePin. split; [split|].
  - intros [r E] p Hp. apply bind_Ok in E as (xs & E & _). apply mapM_Ok_inv in E. clear - E Hp.
    induction E as [|p' x ps xs Hx E IH]; [destruct Hp|]. destruct Hp as [->|Hp]; [|auto]. exists x. now apply pin1_spec.
  - intros H. destruct (mapM_ok_ex (pin1 int_) (split_on semicolon s)) as [xs ->]; [|cbn; eauto].
    intros p Hp. destruct (H p Hp) as [x Hx]. exists x. now apply pin1_spec.
  - intros e E. destruct (mapM (pin1 int_) (split_on semicolon s)) as [xs|e'] eqn:Em; cbn [bind] in E; [discriminate|].
    injection E as ->. apply mapM_Raise_inv in Em as (p & Hp & Ep).
    exists p. unfold pin1 in Ep. destruct (first_sep comma p) as [H|(q & r & H & ->)].
    + rewrite (split_once_plain H) in Ep. cbn [nth nth_error] in Ep. exists p. split; [exact Hp|]. split; [left; reflexivity|].
      destruct (int_ p); [discriminate|]. cbn in Ep. congruence.
    + rewrite (split_once_app r H) in Ep. cbn [nth nth_error] in Ep. exists q. split; [exact Hp|]. split; [right; eauto|].
      destruct (int_ q); [discriminate|]. cbn in Ep. congruence.
Qed.
Definition plain_arg (t : text) : Prop := ~ In comma t /\ ~ In colon t.
Lemma pair_of_split c s a b : pair_of (split_on c s) = Ok (a, b) <-> s = a ++ c :: b /\ ~ In c a /\ ~ In c b.
Proof.
  split.
  - destruct (split_on_join c s) as [J F]. destruct (split_on c s) as [|x [|y [|]]]; try discriminate.
    intros [= -> ->]. cbn [join] in J. inversion F as [|? ? Fa F']; subst. inversion F' as [|? ? Fb _]; subst. auto.
  - intros (-> & Ha & Hb). rewrite split_on_app, split_on_plain by assumption. reflexivity.
Qed.
Theorem C40_parseMutation int_ s i a j b :
  parseMutation int_ s = Ok ((i, a), (j, b)) <->
  exists p q, s = p ++ comma :: a ++ colon :: q ++ comma :: b /\
    plain_arg p /\ plain_arg a /\ plain_arg q /\ plain_arg b /\ int_ p = Ok i /\ int_ q = Ok j.
Proof.
  assert (Ni : forall x (l r : text) c, ~ In x (l ++ c :: r) <-> ~ In x l /\ x <> c /\ ~ In x r).
  { intros x l r c. rewrite in_app_iff. cbn. intuition congruence. }
  unfold parseMutation, plain_arg. split.
  - intros E. apply bind_Ok in E as ([x y] & E1 & E). apply bind_Ok in E as ([p a'] & E2 & E).
    apply bind_Ok in E as ([q b'] & E3 & E). apply bind_Ok in E as (i' & Ei & E). apply bind_Ok in E as (j' & Ej & [= <- <- <- <-]).
    cbn [fst snd] in *. apply pair_of_split in E1 as (-> & X & Y). apply pair_of_split in E2 as (-> & P & A).
    apply pair_of_split in E3 as (-> & Q' & B). apply Ni in X as (X1 & _ & X2). apply Ni in Y as (Y1 & _ & Y2).
    exists p, q. split; [rewrite <- !app_assoc; reflexivity|]. auto 10.
  - intros (p & q & -> & (P1 & P2) & (A1 & A2) & (Q1 & Q2) & (B1 & B2) & Ei & Ej).
    assert (E1 : pair_of (split_on colon (p ++ comma :: a ++ colon :: q ++ comma :: b)) = Ok (p ++ comma :: a, q ++ comma :: b)).
    { apply pair_of_split. split; [rewrite <- app_assoc; reflexivity|]. split; apply Ni; (split; [assumption|split; [discriminate|assumption]]). }
    rewrite E1. cbn [bind fst snd].
    assert (E2 : pair_of (split_on comma (p ++ comma :: a)) = Ok (p, a)) by now apply pair_of_split.
    assert (E3 : pair_of (split_on comma (q ++ comma :: b)) = Ok (q, b)) by now apply pair_of_split.
    rewrite E2. cbn [bind fst snd]. rewrite E3. cbn [bind fst snd]. rewrite Ei. cbn [bind]. rewrite Ej. reflexivity.
Qed.
Lemma pair_of_err l e : pair_of l = Raise e -> e = ValueError.
Proof. destruct l as [|? [|? [|]]]; cbn; congruence. Qed.
Theorem C40_parseMutation_error int_ s e : (forall t e, int_ t = Raise e -> e = ValueError) ->
  parseMutation int_ s = Raise e -> e = ValueError.
Proof.
  intros Hi. unfold parseMutation. intros E.
  apply bind_Raise in E as [E|([x y] & _ & E)]; [now apply pair_of_err in E|].
  apply bind_Raise in E as [E|([p a] & _ & E)]; [now apply pair_of_err in E|].
  apply bind_Raise in E as [E|([q b] & _ & E)]; [now apply pair_of_err in E|].
  apply bind_Raise in E as [E|(i & _ & E)]; [now apply Hi in E|].
  apply bind_Raise in E as [E|(j & _ & E)]; [now apply Hi in E|]. discriminate.
Qed.
(** The syntax the docstring describes, layer;button, is not accepted for any
    button name that is not a number. *)
Theorem C40_documented_syntax_rejected int_ l b e : ~ In semicolon l -> ~ In semicolon b -> ~ In comma b -> int_ b = Raise e ->
  forall r, parsePin int_ (l ++ semicolon :: b) <> Ok r.
Proof.
  intros Hl Hb Hc Eb r E. assert (J : l ++ semicolon :: b = join semicolon [l; b]) by reflexivity. rewrite J in E.
  destruct (@C40_parsePin int_ [l; b] r) as (_ & A & _); [discriminate|repeat constructor; assumption|exact E|].
  destruct (A b) as (x & _ & S); [right; left; reflexivity|].
  inversion S as [p z N Ez|q b' z N Ez Eq]; subst; [congruence|]. apply Hc, in_or_app. right. left. reflexivity.
Qed.
(** int() for non-negative decimal numbers *)
Definition digits (t : text) : res Z :=
  match t with [] => Raise ValueError | _ =>
    foldM (fun z c => if (48 <=? c)%N && (c <=? 57)%N then Ok (10 * z + Z.of_N c - 48)%Z else Raise ValueError) t 0%Z end.
Definition str (s : string) : text := map (fun a => Ascii.N_of_ascii a) (list_ascii_of_string s).
Example C40_case_pin : parsePin digits (str "12;1,B*;0,a,b;12") = Ok [(12%Z, None); (1%Z, Some (str "B*")); (0%Z, Some (str "a,b"))].
Proof. vm_compute. reflexivity. Qed.
Example C40_case_doc : parsePin digits (str "1;Bl1") = Raise ValueError.
Proof. vm_compute. reflexivity. Qed.
Example C40_case_mut : parseMutation digits (str "0,Bl1:12,Dr3") = Ok ((0%Z, str "Bl1"), (12%Z, str "Dr3")) /\
  parseMutation digits (str "0,Bl1:12,Dr3:") = Raise ValueError /\ parseMutation digits (str "0,Bl1") = Raise ValueError.
Proof. vm_compute. repeat split. Qed.

Print Assumptions C36_best_accepted.
Print Assumptions C36_runs.
Print Assumptions C36_deterministic.
Print Assumptions C36_never_positive.
Print Assumptions C36_strict.
Print Assumptions C33_swap.
Print Assumptions C33_mutation.
Print Assumptions C33_randomize.
Print Assumptions C33_run.
Print Assumptions C33_walk.
Print Assumptions C34_mutation.
Print Assumptions C34_randomize.
Print Assumptions C34_run.
Print Assumptions C33_initial.
Print Assumptions C33_user_mutations.
Print Assumptions C33_user_keys.
Print Assumptions C34_nothing_enters.
Print Assumptions C34_expanded.
Print Assumptions C34_needs_start.
Print Assumptions C37_loop_ends.
Print Assumptions C37_fair.
Print Assumptions C37_stuck.
Print Assumptions C37_all_pinned.
Print Assumptions C37_all_but_one_pinned.
Print Assumptions C37_empty.
Print Assumptions C35_reset.
Print Assumptions C35_costs_unique.
Print Assumptions C35_incremental.
Print Assumptions C35_checks_pass.
Print Assumptions C35_needs_mutable.
Print Assumptions C38_written.
Print Assumptions C38_sent_one_to_one.
Print Assumptions C38_same_texts.
Print Assumptions C38_pins.
Print Assumptions C39_reported_energy_refuted.
Print Assumptions C39_reported_energy_partial.
Print Assumptions C40_parsePin.
Print Assumptions C40_parsePin_total.
Print Assumptions C40_parseMutation.
Print Assumptions C40_parseMutation_error.
Print Assumptions C40_documented_syntax_rejected.
