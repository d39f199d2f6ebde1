(** C78: YamlLoader (util.py:38-72). *)
From Coq Require Import Ascii String.
From Verif Require Import Base TextModel LoaderModel.
Open Scope string_scope.
Open Scope list_scope.

Definition lit (s : string) : name := map N_of_ascii (list_ascii_of_string s).
Section Spec.
  Context {V T : Type}.
  Variable deserialize : V -> attempt T.
  (** The file [k] of [d] can be used and gives [x]. *)
  Definition holds (d : @dir V) (k : name) (x : T) : Prop := exists v, dget d k = Some (Got v) /\ deserialize v = Got x.
  (** There is no such file or it is passed over. *)
  Definition passed (d : @dir V) (k : name) : Prop :=
    dget d k = None \/ dget d k = Some Missing \/ dget d k = Some Unreadable \/ exists v, dget d k = Some (Got v) /\ (deserialize v = Missing \/ deserialize v = Unreadable).
  Definition broken (d : @dir V) (k : name) (e : exn) : Prop :=
    dget d k = Some (Failed e) \/ exists v, dget d k = Some (Got v) /\ deserialize v = Failed e.
End Spec.
Definition yaml_name (n : name) : Prop := exists s, n = s ++ dot_yaml /\ forall r, n <> 46%N :: r.

Lemma load_spec {V T} (de : V -> attempt T) d k :
  match load de d k with Got x => holds de d k x | Missing | Unreadable => passed de d k | Failed e => broken de d k e end.
Proof.
  unfold load, holds, passed, broken. destruct (dget d k) as [[v| | |e]|] eqn:E; auto. destruct (de v) as [x| | |e] eqn:D; eauto 9.
Qed.
Lemma load_holds {V T} (de : V -> attempt T) d k x : load de d k = Got x <-> holds de d k x.
Proof.
  unfold load, holds. split.
  - destruct (dget d k) as [[v| | |e]|]; try discriminate. eauto.
  - intros (v & -> & H). exact H.
Qed.
Lemma load_broken {V T} (de : V -> attempt T) d k e : load de d k = Failed e <-> broken de d k e.
Proof.
  unfold load, broken. split.
  - destruct (dget d k) as [[v| | |e']|]; try discriminate; [eauto|]. intros [= ->]. auto.
  - intros [->|(v & -> & H)]; auto.
Qed.
Lemma load_passed {V T} (de : V -> attempt T) d k : (load de d k = Missing \/ load de d k = Unreadable) <-> passed de d k.
Proof.
  unfold load, passed. split.
  - destruct (dget d k) as [[v| | |e']|]; intros [H|H]; try discriminate; eauto 7.
  - intros [->|[->|[->|(v & -> & H)]]]; auto.
Qed.
(** Lookup: the working directory first, then the resource with and without the extension. *)
Theorem C78_lookup {V T} (de : V -> attempt T) cwd res k x : getitem de cwd res k false = Ok x <->
  holds de cwd k x \/ (passed de cwd k /\ (holds de res (k ++ dot_yaml) x \/ (passed de res (k ++ dot_yaml) /\ holds de res k x))).
Proof.
  unfold getitem. cbn [app tries]. rewrite <- !load_passed, <- !load_holds.
  destruct (load de cwd k) as [y| | |e], (load de res (k ++ dot_yaml)) as [y'| | |e'], (load de res k) as [y''| | |e'']; split; intuition (try congruence; try discriminate).
Qed.
Theorem C78_errors {V T} (de : V -> attempt T) cwd res k e : getitem de cwd res k false = Raise e <->
  broken de cwd k e \/ (passed de cwd k /\ (broken de res (k ++ dot_yaml) e \/ (passed de res (k ++ dot_yaml) /\ (broken de res k e \/ (passed de res k /\ e = KeyError))))).
Proof.
  unfold getitem. cbn [app tries]. rewrite <- !load_passed, <- !load_broken.
  destruct (load de cwd k) as [y| | |f], (load de res (k ++ dot_yaml)) as [y'| | |f'], (load de res k) as [y''| | |f'']; split; intuition (try congruence; try discriminate).
Qed.
Lemma is_yaml_spec n : is_yaml n = true <-> yaml_name n.
Proof.
  unfold is_yaml, yaml_name. rewrite Bool.andb_true_iff, Bool.negb_true_iff. split.
  - intros [H1 H2]. apply (proj1 (eqb_eq _ _)) in H2. exists (firstn (List.length n - 5) n). rewrite <- H2, firstn_skipn. split; [reflexivity|]. intros r ->. cbn in H1. discriminate.
  - intros (s & -> & H). split.
    + destruct (s ++ dot_yaml) as [|c r] eqn:E; [reflexivity|]. apply N.eqb_neq. intros ->. exact (H r eq_refl).
    + apply eqb_eq. rewrite app_length. change (List.length dot_yaml) with 5. rewrite Nat.add_sub, skipn_app, skipn_all, Nat.sub_diag. reflexivity.
Qed.
(** Iteration never looks at the working directory. *)
Theorem C78_iter_cwd {V T} (de : V -> attempt T) cwd cwd' res : iter de cwd res = iter de cwd' res.
Proof. unfold iter. induction (dkeys res) as [|n ns IH]; cbn [iter_]; [reflexivity|]. rewrite IH. reflexivity. Qed.
(** It yields the visible YAML files in order, unless one has the name of another plus the extension. *)
Theorem C78_iter {V T} (de : V -> attempt T) cwd res (f : name -> T) :
  (forall n, In n (dkeys res) -> yaml_name n -> holds de res n (f n)) ->
  (forall n, In n (dkeys res) -> yaml_name n -> ~ In (n ++ dot_yaml) (dkeys res)) ->
  exists ns, iter de cwd res = (map f ns, None) /\ (forall n, In n ns <-> In n (dkeys res) /\ yaml_name n) /\ exists p, ns = filter p (dkeys res).
Proof.
  intros Hg Hn. exists (filter is_yaml (dkeys res)). split; [|split; [intros n; rewrite filter_In, is_yaml_spec; reflexivity|eauto]].
  unfold iter. assert (G : forall ns, (forall n, In n ns -> In n (dkeys res)) -> iter_ de cwd res ns = (map f (filter is_yaml ns), None)); [|apply G; auto].
  induction ns as [|n ns IH]; intros Hs; cbn [iter_ filter]; [reflexivity|]. specialize (IH (fun m I => Hs m (or_intror I))). pose proof (Hs n (or_introl eq_refl)) as In_.
  destruct (is_yaml n) eqn:Y; [|exact IH]. apply is_yaml_spec in Y. unfold getitem. cbn [app tries].
  assert (E1 : load de res (n ++ dot_yaml) = Missing).
  { unfold load. destruct (dget res (n ++ dot_yaml)) as [w|] eqn:E; [|reflexivity]. exfalso. apply (Hn n In_ Y). apply dget_key. eauto. }
  rewrite E1, (proj2 (load_holds de res n (f n)) (Hg n In_ Y)), IH. reflexivity.
Qed.
(** It ends at the first visible YAML file that is broken or passed over, after those before. *)
Theorem C78_iter_stops {V T} (de : V -> attempt T) cwd res (f : name -> T) before n after e : dkeys res = before ++ n :: after ->
  (forall n, In n before -> yaml_name n -> holds de res n (f n)) ->
  (forall n, In n (dkeys res) -> yaml_name n -> ~ In (n ++ dot_yaml) (dkeys res)) ->
  yaml_name n -> broken de res n e \/ (passed de res n /\ e = KeyError) ->
  exists ns, iter de cwd res = (map f ns, Some e) /\ (forall m, In m ns <-> In m before /\ yaml_name m) /\ exists p, ns = filter p before.
Proof.
  intros Ek Hg Hn Hy Hb. exists (filter is_yaml before). split; [|split; [intros m; rewrite filter_In, is_yaml_spec; reflexivity|eauto]].
  assert (M : forall m, In m (dkeys res) -> yaml_name m -> load de res (m ++ dot_yaml) = Missing).
  { intros m Im Y. unfold load. destruct (dget res (m ++ dot_yaml)) as [w|] eqn:E; [|reflexivity]. exfalso. apply (Hn m Im Y). apply dget_key. eauto. }
  unfold iter. rewrite Ek. assert (Hs : forall m, In m before -> In m (dkeys res)) by (intros m I; rewrite Ek; apply in_or_app; left; exact I).
  assert (Ie : In n (dkeys res)) by (rewrite Ek; apply in_or_app; right; left; reflexivity). clear Ek.
  induction before as [|m ns IH]; cbn [app iter_ filter].
  - rewrite (proj2 (is_yaml_spec n) Hy). unfold getitem. cbn [app tries]. rewrite (M n Ie Hy). destruct Hb as [B|[B ->]].
    + apply load_broken in B. rewrite B. reflexivity.
    + apply load_passed in B. destruct B as [-> | ->]; reflexivity.
  - assert (IH' : iter_ de cwd res (ns ++ n :: after) = (map f (filter is_yaml ns), Some e)).
    { apply IH; intros m' I; [apply Hg|apply Hs]; right; exact I. }
    destruct (is_yaml m) eqn:Y; [|exact IH']. apply is_yaml_spec in Y. unfold getitem. cbn [app tries].
    rewrite (M m (Hs m (or_introl eq_refl)) Y), (proj2 (load_holds de res m (f m)) (Hg m (or_introl eq_refl) Y)), IH'. reflexivity.
Qed.
(** and what is yielded for a file is what looking up its name without extension gives. *)
Theorem C78_agree {V T} (de : V -> attempt T) cwd res s x : passed de cwd s -> holds de res (s ++ dot_yaml) x -> passed de res (s ++ dot_yaml ++ dot_yaml) ->
  getitem de cwd res s false = Ok x /\ getitem de cwd res (s ++ dot_yaml) true = Ok x.
Proof.
  intros Hc H Hn. apply load_holds in H. apply load_passed in Hc, Hn. rewrite app_assoc in Hn.
  unfold getitem. cbn [app tries]. rewrite H. destruct Hc as [-> | ->], Hn as [-> | ->]; split; reflexivity.
Qed.
(** Without the condition: the second file is yielded twice, the first never. *)
Theorem C78_iter_needs_names : exists (res : @dir nat), iter (fun v => Got v) [] res = ([2; 2], None) /\ NoDup (dkeys res) /\ holds (fun v => Got v) res (lit "a.yaml") 1 /\ ~ In 1 (fst (iter (fun v => Got v) [] res)).
Proof.
  exists [(lit "a.yaml", Got 1); (lit "a.yaml.yaml", Got 2)]. split; [vm_compute; reflexivity|]. split; [apply nodupb_NoDup; vm_compute; reflexivity|].
  split; [exists 1; split; vm_compute; reflexivity|]. vm_compute. intuition discriminate.
Qed.
Example C78_example : let res := [(lit "a.yaml", Got 1); (lit ".x.yaml", Got 5); (lit "b.yaml", Got 2); (lit "c", Got 3); (lit "d.yaml", Unreadable); (lit "e.yaml", Failed ValueError)] in
  let cwd := [(lit "b", Got 7)] in let get := getitem (fun v => Got v) cwd res in
  get (lit "a") false = Ok 1 /\ get (lit "b") false = Ok 7 /\ get (lit "c") false = Ok 3 /\ get (lit "d") false = Raise KeyError /\ get (lit "e") false = Raise ValueError /\ get (lit "a.yaml") true = Ok 1 /\
  iter (fun v : nat => Got v) cwd (firstn 4 res) = ([1; 2], None) /\ iter (fun v : nat => Got v) cwd res = ([1; 2], Some KeyError).
Proof. vm_compute. repeat split. Qed.
Print Assumptions C78_lookup.
Print Assumptions C78_errors.
Print Assumptions C78_iter_cwd.
Print Assumptions C78_iter.
Print Assumptions C78_iter_stops.
Print Assumptions C78_agree.
Print Assumptions C78_iter_needs_names.
