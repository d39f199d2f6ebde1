(** Proofs about command lines. *)
From Coq Require Import Ascii.
From Verif Require Import Base ArgModel ArgSpec.
Open Scope string_scope.
Open Scope list_scope.
Unset Implicit Arguments.

Lemma obind_inv {A B} (m : out A) (f : A -> out B) b : obind m f = Done b -> exists a, m = Done a /\ f a = Done b.
Proof. destruct m; cbn; intros H; [eauto|discriminate H|discriminate H]. Qed.

(** * Strings *)
Fixpoint has_eq (s : string) : bool := match s with EmptyString => false | String c s' => Ascii.eqb c "=" || has_eq s' end.
Lemma has_eq_app a b : has_eq (a ++ b)%string = has_eq a || has_eq b.
Proof. induction a; cbn; [reflexivity|]. rewrite IHa. now destruct (Ascii.eqb a "="), (has_eq a0). Qed.
Lemma partition_app o s : has_eq o = false -> partition_eq (o ++ "=" ++ s)%string = (o, Some s).
Proof.
  induction o as [|c o IH]; intros H; cbn in *; [reflexivity|].
  apply Bool.orb_false_iff in H. destruct H as [H1 H2]. rewrite H1.
  now rewrite (IH H2).
Qed.
Lemma plain_not_dashes s : starts_dash s = false -> String.eqb s "--" = false.
Proof. intros H. destruct (String.eqb_spec s "--") as [->|]; [discriminate H|reflexivity]. Qed.
Lemma joined_not o s x : has_eq x = false -> String.eqb (o ++ "=" ++ s)%string x = false.
Proof.
  intros H. destruct (String.eqb_spec (o ++ "=" ++ s)%string x) as [E|]; [|reflexivity].
  subst x. rewrite has_eq_app in H. cbn in H. now destruct (has_eq o).
Qed.
Lemma starts_app o s : starts_dash o = true -> starts_dash (o ++ s)%string = true.
Proof. destruct o; cbn; [intros H; discriminate H|trivial]. Qed.

(** * Well-formed parsers *)
Definition good_opt (o : string) : bool := starts_dash o && negb (has_eq o) && negb (String.eqb o "--") && negb (String.eqb o "-").
Definition wf_action (a : action) : bool :=
  forallb good_opt (a_opts a) &&
  match a_opts a, a_kind a, a_nargs a, a_default a with
  | [], Store, N1, Some _ => true
  | [], Store, NPlus, Some _ => true
  | [], Subs, NParser, None => negb (a_required a)
  | _ :: _, Store, N1, Some _ => negb (a_required a)
  | _ :: _, Store, NPlus, Some _ => negb (a_required a)
  | _ :: _, Append, N1, Some (VList []) => negb (a_required a)
  | _ :: _, StoreTrue, N0, Some (VBool false) => negb (a_required a)
  | _ :: _, ShowHelp, N0, None => negb (a_required a)
  | _, _, _, _ => false
  end.
Definition wf_parser (p : parser) : bool :=
  forallb wf_action (p_actions p) && nodupb (map a_dest (p_actions p)) && nodupb (flat_map a_opts (p_actions p)) &&
  forallb (fun k => negb (mem k (map a_dest (p_actions p)))) (map fst (p_defaults p)) && nodupb (map fst (p_defaults p)).

Lemma wf_act p a : wf_parser p = true -> In a (p_actions p) -> wf_action a = true.
Proof.
  unfold wf_parser. intros H Ha. repeat (apply andb_prop in H; destruct H as [H ?]).
  exact (proj1 (forallb_forall _ _) H a Ha).
Qed.
Lemma wf_dest p a b : wf_parser p = true -> In a (p_actions p) -> In b (p_actions p) -> a_dest a = a_dest b -> a = b.
Proof.
  unfold wf_parser. intros H. repeat (apply andb_prop in H; destruct H as [H ?]).
  match goal with K : nodupb (map a_dest _) = true |- _ => apply nodupb_NoDup in K; revert K end.
  generalize (p_actions p). clear. induction l as [|x l IH]; intros N Ha Hb E; [destruct Ha|].
  cbn in N. inversion N as [|? ? N1 N2]; subst. destruct Ha as [->|Ha], Hb as [->|Hb]; auto.
  - exfalso. apply N1. rewrite E. now apply in_map.
  - exfalso. apply N1. rewrite <- E. now apply in_map.
Qed.
Lemma wf_opt p a b o : wf_parser p = true -> In a (p_actions p) -> In b (p_actions p) -> In o (a_opts a) -> In o (a_opts b) -> a = b.
Proof.
  unfold wf_parser. intros H. repeat (apply andb_prop in H; destruct H as [H ?]).
  match goal with K : nodupb (flat_map a_opts _) = true |- _ => apply nodupb_NoDup in K; revert K end.
  generalize (p_actions p). clear. induction l as [|x l IH]; intros N Ha Hb E E'; [destruct Ha|].
  cbn in N.
  assert (forall y, In y (a_opts x) -> In y (flat_map a_opts l) -> False) as Q.
  { intros y Y1 Y2. revert Y1 Y2 N. clear. induction (a_opts x) as [|z zs IH]; intros Y1 Y2 N; [destruct Y1|].
    cbn in N. inversion N; subst. destruct Y1 as [->|Y1]; [|now apply IH].
    match goal with K : ~ In y _ |- _ => apply K end. apply in_or_app. now right. }
  assert (NoDup (flat_map a_opts l)) as N'.
  { revert N. clear. induction (a_opts x); cbn; [trivial|]. intros N. inversion N; subst. auto. }
  destruct Ha as [->|Ha], Hb as [->|Hb]; auto.
  - exfalso. apply (Q o E). apply in_flat_map. eauto.
  - exfalso. apply (Q o E'). apply in_flat_map. eauto.
Qed.
Lemma wf_good p a o : wf_parser p = true -> In a (p_actions p) -> In o (a_opts a) -> good_opt o = true.
Proof.
  intros H Ha Ho. apply (wf_act _ _ H) in Ha. unfold wf_action in Ha. apply andb_prop in Ha.
  exact (proj1 (forallb_forall _ _) (proj1 Ha) o Ho).
Qed.
Lemma find_opt_In p a o : wf_parser p = true -> In a (p_actions p) -> In o (a_opts a) -> find_opt p o = Some a.
Proof.
  intros H Ha Ho. unfold find_opt. destruct (find _ _) as [b|] eqn:F.
  - apply find_some in F. destruct F as [F1 F2]. apply mem_In in F2. f_equal. exact (wf_opt _ _ _ o H F1 Ha F2 Ho).
  - pose proof (find_none _ _ F a Ha) as K. cbv beta in K. apply mem_nIn in K. now elim K.
Qed.
Lemma find_opt_good p a o : wf_parser p = true -> find_opt p o = Some a -> In a (p_actions p) /\ In o (a_opts a) /\ good_opt o = true.
Proof.
  intros H F. apply find_some in F. destruct F as [F1 F2]. apply mem_In in F2. split; [exact F1|]. split; [exact F2|]. exact (wf_good _ _ _ H F1 F2).
Qed.

(** * Options as they are usually written *)
Definition item_tags (p : parser) (i : item) : list (string * tag) :=
  match i with
  | Given o s => [(o, TOpt (find_opt p o) o false None); (s, TArg)]
  | Joined o s => [((o ++ "=" ++ s)%string, TOpt (find_opt p o) o true (Some s))]
  | Flag o => [(o, TOpt (find_opt p o) o false None)]
  | Many o s l => (o, TOpt (find_opt p o) o false None) :: map (fun x => (x, TArg)) (s :: l)
  end.
Lemma tags_plain p l rest : Forall plain l ->
  tags p (l ++ rest) = let! r := tags p rest in Done (map (fun x => (x, TArg)) l ++ r).
Proof.
  induction l as [|s l IH]; intros H; cbn [app map]; [now destruct (tags p rest)|].
  inversion H as [|? ? H1 H2]; subst. cbn [tags]. rewrite (plain_not_dashes _ H1). unfold parse_optional. unfold plain in H1. rewrite H1. cbn [negb obind].
  rewrite (IH H2). now destruct (tags p rest).
Qed.
Lemma tags_opt p a o rest : wf_parser p = true -> In a (p_actions p) -> In o (a_opts a) ->
  tags p (o :: rest) = let! r := tags p rest in Done ((o, TOpt (find_opt p o) o false None) :: r).
Proof.
  intros H Ha Ho. pose proof (wf_good _ _ _ H Ha Ho) as G. unfold good_opt in G.
  repeat (apply andb_prop in G; destruct G as [G ?]).
  cbn [tags]. destruct (String.eqb o "--"); [discriminate|]. unfold parse_optional. rewrite G. cbn [negb].
  now rewrite (find_opt_In _ _ _ H Ha Ho).
Qed.
Lemma tags_item p i rest : wf_parser p = true -> fits p i ->
  tags p (words i ++ rest) = let! r := tags p rest in Done (item_tags p i ++ r).
Proof.
  intros H [a [Ha [Ho Hi]]]. pose proof (wf_good _ _ _ H Ha Ho) as G. unfold good_opt in G.
  destruct i as [o s|o s|o|o s l]; cbn [item_opt words item_tags] in *.
  - cbn [app]. rewrite (tags_opt p a o (s :: rest) H Ha Ho).
    pose proof (tags_plain p [s] rest) as T. cbn [app map] in T. rewrite T; [|constructor; [apply Hi|constructor]].
    now destruct (tags p rest).
  - repeat (apply andb_prop in G; destruct G as [G ?]).
    cbn [app tags]. rewrite (joined_not o s "--" eq_refl). unfold parse_optional.
    rewrite (starts_app o _ G). cbn [negb]. rewrite (joined_not o s "-" eq_refl).
    destruct (find_opt p (o ++ "=" ++ s)%string) as [b|] eqn:F.
    { apply find_opt_good in F; [|exact H]. destruct F as [_ [_ F]]. unfold good_opt in F. rewrite has_eq_app in F. cbn [has_eq append Ascii.eqb] in F.
      cbn in F. exfalso. revert F. destruct (has_eq o); cbn; rewrite ?Bool.andb_false_r; discriminate. }
    rewrite partition_app by now destruct (has_eq o).
    rewrite (find_opt_In _ _ _ H Ha Ho). now destruct (tags p rest).
  - cbn [app]. now rewrite (tags_opt p a o rest H Ha Ho).
  - cbn [app]. rewrite (tags_opt p a o _ H Ha Ho). destruct Hi as [_ [_ Hi]].
    pose proof (tags_plain p (s :: l) rest Hi) as T. cbn [app] in T. rewrite T. now destruct (tags p rest).
Qed.
Lemma tags_items p items rest : wf_parser p = true -> Forall (fits p) items ->
  tags p (flat_map words items ++ rest) = let! r := tags p rest in Done (flat_map (item_tags p) items ++ r).
Proof.
  intros H. induction 1 as [|i items Hi _ IH]; cbn [flat_map app]; [now destruct (tags p rest)|].
  rewrite <- app_assoc, (tags_item _ _ _ H Hi), IH. destruct (tags p rest); cbn [obind]; try reflexivity. now rewrite app_assoc.
Qed.

Section Parse.
  Variable accepts : conv -> string -> bool.
  Notation take := (take accepts).
  Notation parse_loop := (parse_loop accepts).
  Notation parse_known := (parse_known accepts).
  Notation allowed := (allowed accepts).
  Notation convert := (convert accepts).

  Definition allowedb (a : action) (s : string) : bool :=
    match a_conv a with CStr => true | c => accepts c s end && match a_choices a with Some l => mem s l | None => true end.
  Lemma allowedb_spec a s : allowedb a s = true <-> allowed a s.
  Proof.
    unfold allowedb, ArgSpec.allowed. rewrite andb_true_iff. split.
    - intros [H1 H2]. split; [destruct (a_conv a); auto|]. destruct (a_choices a); [now apply mem_In|exact I].
    - intros [H1 H2]. split; [destruct H1 as [->|H1]; [reflexivity|destruct (a_conv a); auto]|].
      destruct (a_choices a); [now apply mem_In|reflexivity].
  Qed.
  Lemma convert_spec a s : convert a s = if allowedb a s then Done (VConv (a_conv a) s) else Exit Usage.
  Proof. unfold ArgModel.convert, allowedb. now destruct (match a_conv a with CStr => true | c => accepts c s end), (match a_choices a with Some l => mem s l | None => true end). Qed.
  Lemma convert_all a l : omapM (convert a) l = if forallb (allowedb a) l then Done (map (VConv (a_conv a)) l) else Exit Usage.
  Proof.
    induction l as [|s l IH]; cbn; [reflexivity|]. rewrite convert_spec. destruct (allowedb a s); cbn; [|reflexivity].
    rewrite IH. now destruct (forallb (allowedb a) l).
  Qed.

  (** What an item does to the state *)
  Definition act (a : action) (i : item) (s : st) : out st :=
    if forallb (allowedb a) (given_strings i) then
      Done (mkSt (dset (s_ns s) (a_dest a)
        match a_kind a with
        | Append => VList (match dget (s_ns s) (a_dest a) with Some (VList l) => l ++ [value_of a i] | _ => [value_of a i] end)
        | _ => value_of a i
        end) (a_dest a :: s_seen s) (s_extras s))
    else Exit Usage.
  Lemma take_item p sub a i s : fits_action a i -> take p sub a (given_strings i) s = act a i s.
  Proof.
    intros [Ho Hi]. unfold ArgModel.take, act, get_values.
    assert (exists o os, a_opts a = o :: os) as [o [os E]] by (destruct (a_opts a); [destruct Ho|eauto]). rewrite E.
    destruct i as [o' s'|o' s'|o'|o' s' l]; cbn [given_strings forallb value_of] in *.
    - destruct Hi as [-> [Hk _]]. rewrite convert_spec, Bool.andb_true_r. destruct Hk as [-> | ->]; destruct (allowedb a s'); reflexivity.
    - destruct Hi as [-> Hk]. rewrite convert_spec, Bool.andb_true_r. destruct Hk as [-> | ->]; destruct (allowedb a s'); reflexivity.
    - destruct Hi as [_ ->]. reflexivity.
    - destruct Hi as [-> [-> _]]. rewrite convert_all. cbn [forallb]. destruct (allowedb a s' && forallb (allowedb a) l); reflexivity.
  Qed.
  Fixpoint acts (p : parser) (items : list item) (s : st) : out st :=
    match items with
    | [] => Done s
    | i :: items' => match find_opt p (item_opt i) with Some a => let! s' := act a i s in acts p items' s' | None => Exit Usage end
    end.

  Definition no_arg (rest : list (string * tag)) : bool := match rest with (_, TArg) :: _ => false | _ => true end.
  Lemma match_many l rest : no_arg rest = true ->
    match_opt NPlus (map snd (map (fun x : string => (x, TArg)) l ++ rest)) = match l with [] => None | _ => Some (List.length l) end.
  Proof.
    intros H. cbn [match_opt].
    match goal with |- match ?r _ with _ => _ end = _ => set (run := r) end.
    assert (run (map snd (map (fun x : string => (x, TArg)) l ++ rest)) = List.length l) as ->.
    { induction l as [|x l IH]; cbn [map app length].
      - destruct rest as [|[x []] rest]; try reflexivity. discriminate H.
      - cbn. f_equal. exact IH. }
    now destruct l.
  Qed.
  Lemma loop_item fuel p sub ps i rest s : wf_parser p = true -> fits p i -> (no_arg rest = true \/ is_many i = false) ->
    parse_loop (S fuel) p sub ps (item_tags p i ++ rest) s =
    match find_opt p (item_opt i) with Some a => let! s' := act a i s in parse_loop fuel p sub ps rest s' | None => Exit Usage end.
  Proof.
    intros H [a [Ha Hi]] Hm. pose proof (proj1 Hi) as Ho. rewrite (find_opt_In _ _ _ H Ha Ho).
    rewrite <- (take_item p sub a i s Hi). destruct Hi as [_ Hi].
    assert (forall x : st, mkSt (s_ns x) (s_seen x) (s_extras x ++ []) = x) as E by (intros []; cbn; now rewrite app_nil_r).
    destruct i as [o s'|o s'|o|o s' l]; cbn [item_opt item_tags given_strings is_many] in *; rewrite (find_opt_In _ _ _ H Ha Ho).
    - destruct Hi as [Hn [Hk _]]. cbn. rewrite Hn. cbn. rewrite E. now destruct (take p sub a [s'] s).
    - destruct Hi as [Hn Hk]. cbn [app ArgModel.parse_loop existsb snd is_opt orb negb consume_optional].
      assert (forall e, opt_chain p a o true e rest [] = Done ([(a, [e])], None, rest)) as C by (intros []; cbn; rewrite Hn; reflexivity).
      rewrite C. cbn. rewrite E. now destruct (take p sub a [s'] s).
    - destruct Hi as [Hn Hk]. cbn. rewrite Hn. cbn. rewrite E. now destruct (take p sub a [] s).
    - destruct Hi as [Hn [Hk _]]. destruct Hm as [Hm|Hm]; [|discriminate Hm].
      change (((o, TOpt (Some a) o false None) :: map (fun x : string => (x, TArg)) (s' :: l)) ++ rest)
        with ((o, TOpt (Some a) o false None) :: (map (fun x : string => (x, TArg)) (s' :: l) ++ rest)).
      cbn [ArgModel.parse_loop existsb snd is_opt orb negb consume_optional].
      rewrite Hn, (match_many (s' :: l) rest Hm). cbn [obind].
      assert (List.length (map (fun x : string => (x, TArg)) (s' :: l)) = List.length (s' :: l)) as L by apply map_length.
      rewrite <- L. rewrite firstn_app, firstn_all, PeanoNat.Nat.sub_diag, skipn_app, skipn_all, PeanoNat.Nat.sub_diag.
      cbn [firstn skipn app]. rewrite app_nil_r, map_map. cbn [fst]. rewrite map_id. cbn [fold_left obind fst snd]. rewrite E. now destruct (take p sub a (s' :: l) s).
  Qed.
  Lemma items_no_arg p items rest : items <> [] -> no_arg (flat_map (item_tags p) items ++ rest) = true.
  Proof. destruct items as [|i items]; intros N; [now elim N|]. now destruct i. Qed.
  Lemma loop_items fuel p sub ps items rest s : wf_parser p = true -> Forall (fits p) items -> (no_arg rest = true \/ forallb (fun i => negb (is_many i)) items = true) ->
    parse_loop (List.length items + fuel) p sub ps (flat_map (item_tags p) items ++ rest) s =
    let! s' := acts p items s in parse_loop fuel p sub ps rest s'.
  Proof.
    intros H F. revert s. induction F as [|i items Hi _ IH]; intros s Hm; cbn [length flat_map app acts obind]; [reflexivity|].
    change (S (List.length items) + fuel)%nat with (S (List.length items + fuel)). rewrite <- app_assoc, loop_item; auto.
    - destruct (find_opt p (item_opt i)) as [a|]; [|reflexivity]. destruct (act a i s) as [s'| |]; cbn [obind]; try reflexivity.
      apply IH. destruct Hm as [Hm|Hm]; [now left|]. right. cbn [forallb] in Hm. now apply andb_prop in Hm.
    - destruct items as [|j items]; [|left; now apply items_no_arg].
      destruct Hm as [Hm|Hm]; [now left|right]. cbn [forallb] in Hm. destruct (is_many i); [discriminate Hm|reflexivity].
  Qed.

  (** Values after items *)
  Lemma acts_good p items s : wf_parser p = true -> Forall (fits p) items -> Forall (good accepts p) items ->
    exists s', acts p items s = Done s' /\ s_extras s' = s_extras s /\
      (forall k, (forall a, In a (p_actions p) -> a_opts a <> [] -> a_dest a <> k) -> dget (s_ns s') k = dget (s_ns s) k) /\
      (forall a d, In a (p_actions p) -> a_opts a <> [] -> dget (s_ns s) (a_dest a) = Some d -> dget (s_ns s') (a_dest a) = Some (expected a d items)) /\
      (forall k, In k (s_seen s') <-> In k (s_seen s) \/ exists a, In a (p_actions p) /\ a_opts a <> [] /\ a_dest a = k /\ exists i, In i items /\ In (item_opt i) (a_opts a)) /\
      (NoDup (dkeys (s_ns s)) -> NoDup (dkeys (s_ns s'))).
  Proof.
    intros H F. revert s. induction F as [|i items Hi F IH]; intros s G.
    - exists s. split; [reflexivity|]. split; [reflexivity|]. split; [reflexivity|]. split.
      + intros a d _ _ E. rewrite E. unfold expected, mine. cbn. now destruct (a_kind a).
      + split; [|trivial]. intros k. split; [now left|]. intros [K|[a [_ [_ [_ [i [[] _]]]]]]]. exact K.
    - inversion G as [|? ? G1 G2]; subst. cbn [acts].
      destruct Hi as [a [Ha Hi]]. pose proof (proj1 Hi) as Ho. rewrite (find_opt_In _ _ _ H Ha Ho).
      assert (forallb (allowedb a) (given_strings i) = true) as A.
      { apply forallb_forall. intros x Hx. apply allowedb_spec. specialize (G1 a Ha Ho). rewrite Forall_forall in G1. now apply G1. }
      unfold act at 1. rewrite A. cbn [obind].
      match goal with |- exists s', acts p items ?x = _ /\ _ => destruct (IH x G2) as [s' [E1 [E2 [E3 [E4 [E5 E6]]]]]] end.
      exists s'. split; [exact E1|]. split; [exact E2|]. cbn [s_ns s_seen] in *.
      assert (a_opts a <> []) as Hne by (intros Q; rewrite Q in Ho; destruct Ho).
      split; [|split; [|split]].
      + intros k Hk. rewrite (E3 k Hk). rewrite dget_dset. destruct (eqb_spec (a_dest a) k) as [Q|Q]; [now elim (Hk a Ha Hne)|].
        destruct (eqb_spec k (a_dest a)); congruence.
      + intros b d Hb Hbn Eb. destruct (eqb_spec (a_dest b) (a_dest a)) as [Q|Q].
        * apply (wf_dest _ _ _ H Hb Ha) in Q. subst b.
          erewrite (E4 a _ Ha Hne); [|rewrite dget_dset; destruct (eqb_spec (a_dest a) (a_dest a)); [reflexivity|congruence]].
          f_equal. unfold expected, mine. cbn [filter]. rewrite (proj2 (mem_In _ _) Ho). cbn [map].
          set (f := map (value_of a) (filter (fun i0 => mem (item_opt i0) (a_opts a)) items)).
          assert (a_kind a <> Append -> last (value_of a i :: f) d = last f (value_of a i)) as L.
          { intros _. generalize (value_of a i). generalize d. clear. induction f as [|x f IH]; intros d v; [reflexivity|].
            change (last (v :: x :: f) d) with (last (x :: f) d). rewrite !IH. reflexivity. }
          destruct (a_kind a); try (rewrite L; [reflexivity|discriminate]).
          rewrite Eb. destruct d as [| | | |l]; destruct f; cbn [app]; try reflexivity.
          now rewrite <- app_assoc.
        * erewrite (E4 b d Hb Hbn); [|rewrite dget_dset; destruct (eqb_spec (a_dest b) (a_dest a)); [congruence|]; destruct (eqb_spec (a_dest a) (a_dest b)); congruence].
          f_equal. unfold expected, mine. cbn [filter]. destruct (mem (item_opt i) (a_opts b)) eqn:M; [|reflexivity].
          apply mem_In in M. elim Q. f_equal. exact (wf_opt _ _ _ _ H Hb Ha M Ho).
      + intros k. rewrite E5. split.
        * intros [[<-|K]|[b [B1 [B2 [B3 [j [B4 B5]]]]]]].
          -- right. exists a. split; [exact Ha|]. split; [exact Hne|]. split; [reflexivity|]. exists i. split; [now left|exact Ho].
          -- now left.
          -- right. exists b. split; [exact B1|]. split; [exact B2|]. split; [exact B3|]. exists j. split; [now right|exact B5].
        * intros [K|[b [B1 [B2 [B3 [j [[<-|B4] B5]]]]]]].
          -- left. now right.
          -- left. left. rewrite <- B3. f_equal. exact (wf_opt _ _ _ _ H Ha B1 Ho B5).
          -- right. exists b. split; [exact B1|]. split; [exact B2|]. split; [exact B3|]. exists j. split; [exact B4|exact B5].
      + intros N. apply E6. now apply dset_wf.
  Qed.
  Lemma acts_bad p items s : wf_parser p = true -> Forall (fits p) items -> ~ Forall (good accepts p) items -> acts p items s = Exit Usage.
  Proof.
    intros H F. revert s. induction F as [|i items Hi F IH]; intros s G; [elim G; constructor|].
    cbn [acts]. destruct Hi as [a [Ha Hi]]. pose proof (proj1 Hi) as Ho. rewrite (find_opt_In _ _ _ H Ha Ho).
    unfold act. destruct (forallb (allowedb a) (given_strings i)) eqn:A; cbn [obind]; [|reflexivity].
    apply IH. intros G'. apply G. constructor; [|exact G'].
    intros b Hb Hob. rewrite (wf_opt _ _ _ _ H Hb Ha Hob Ho). apply Forall_forall. intros x Hx. apply allowedb_spec.
    exact (proj1 (forallb_forall _ _) A x Hx).
  Qed.
End Parse.
