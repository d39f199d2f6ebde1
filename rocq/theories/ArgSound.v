(** What an accepted command line can give. *)
From Coq Require Import Ascii.
From Verif Require Import Base ArgModel ArgSpec ArgProofs ArgAccept.
Open Scope string_scope.
Open Scope list_scope.
Unset Implicit Arguments.

(** * Tags *)
Lemma suffix_refl s : suffix s s.
Proof. exists "". reflexivity. Qed.
Lemma suffix_cons c s x : suffix (String c s) x -> suffix s x.
Proof. intros [pre ->]. exists (pre ++ String c "")%string. induction pre as [|d pre IH]; cbn in *; [reflexivity|now rewrite IH]. Qed.
Lemma partition_suffix s a e : partition_eq s = (a, Some e) -> suffix e s.
Proof.
  revert a. induction s as [|c s IH]; intros a E; cbn in E; [discriminate E|].
  destruct (Ascii.eqb c "="); [injection E as _ <-; exists (String c ""); reflexivity|].
  destruct (partition_eq s) as [a' b']. injection E as _ ->. destruct (IH _ eq_refl) as [pre ->]. exists (String c pre). reflexivity.
Qed.
Definition tag_ok (p : parser) (x : string) (t : tag) : Prop :=
  match t with
  | TOpt (Some a) o _ e => In a (p_actions p) /\ In o (a_opts a) /\ match e with Some y => suffix y x | None => True end
  | _ => True
  end.
Lemma option_tuples_ok p s t : In t (option_tuples p s) -> tag_ok p s t.
Proof.
  unfold option_tuples. destruct s as [|c0 [|c rest]]; [intros []|intros []|]. destruct (Ascii.eqb c "-").
  - destruct (partition_eq _) as [pre e] eqn:E. intros H. apply in_flat_map in H. destruct H as [a [Ha H]]. apply in_flat_map in H. destruct H as [o [Ho H]].
    destruct (String.prefix pre o); [|destruct H]. destruct H as [<-|[]]. cbn [tag_ok]. split; [exact Ha|]. split; [exact Ho|]. destruct e; [|exact I]. exact (partition_suffix _ _ _ E).
  - intros H. apply in_flat_map in H. destruct H as [a [Ha H]]. apply in_flat_map in H. destruct H as [o [Ho H]].
    destruct (String.eqb o _).
    + destruct H as [<-|[]]. cbn [tag_ok]. split; [exact Ha|]. split; [exact Ho|]. exists (String c0 (String c "")). reflexivity.
    + destruct (String.prefix _ o); [|destruct H]. destruct H as [<-|[]]. cbn [tag_ok]. auto.
Qed.
Lemma parse_optional_ok p s t : parse_optional p s = Done t -> tag_ok p s t /\ is_dash t = false.
Proof.
  assert (forall o a, find_opt p o = Some a -> In a (p_actions p) /\ In o (a_opts a)) as F.
  { intros o a F. apply find_some in F. destruct F as [F1 F2]. split; [exact F1|now apply mem_In]. }
  assert (forall t, In t (option_tuples p s) -> is_dash t = false) as D.
  { intros t0. unfold option_tuples. destruct s as [|c0 [|c rest]]; [intros []|intros []|]. destruct (Ascii.eqb c "-").
    - destruct (partition_eq _) as [pre e]. intros H. apply in_flat_map in H. destruct H as [a [Ha H]]. apply in_flat_map in H. destruct H as [o [Ho H]].
      destruct (String.prefix pre o); [|destruct H]. destruct H as [<-|[]]. reflexivity.
    - intros H. apply in_flat_map in H. destruct H as [a [Ha H]]. apply in_flat_map in H. destruct H as [o [Ho H]].
      destruct (String.eqb o _); [|destruct (String.prefix _ o); [|destruct H]]; destruct H as [<-|[]]; reflexivity. }
  unfold parse_optional. destruct (negb _); [intros E; injection E as <-; split; [exact I|reflexivity]|].
  destruct (find_opt p s) as [a|] eqn:E1; [intros E; injection E as <-; destruct (F _ _ E1); cbn; auto|].
  destruct (String.eqb s "-"); [intros E; injection E as <-; split; [exact I|reflexivity]|].
  destruct (partition_eq s) as [o e] eqn:P.
  assert (option_tuples p s = option_tuples p s) as _ by reflexivity.
  destruct e as [x|]; [destruct (find_opt p o) as [a|] eqn:E2|].
  - intros E. injection E as <-. destruct (F _ _ E2). cbn. split; [|reflexivity]. split; [assumption|]. split; [assumption|]. exact (partition_suffix _ _ _ P).
  - pose proof (option_tuples_ok p s) as O. destruct (option_tuples p s) as [|t1 [|t2 ts]].
    + destruct (_ || _); intros E; injection E as <-; split; reflexivity || exact I.
    + intros E. injection E as <-. split; [apply O; now left|apply D; now left].
    + intros E. discriminate E.
  - pose proof (option_tuples_ok p s) as O. destruct (option_tuples p s) as [|t1 [|t2 ts]].
    + destruct (_ || _); intros E; injection E as <-; split; reflexivity || exact I.
    + intros E. injection E as <-. split; [apply O; now left|apply D; now left].
    + intros E. discriminate E.
Qed.
Lemma count_cons_mono (x y : string) l : (count x l <= count x (y :: l))%Z.
Proof. cbn [count]. destruct (eqb x y); lia. Qed.
Lemma count_In (x : string) l : In x l -> (1 <= count x l)%Z.
Proof. intros H. apply count_pos in H. lia. Qed.

(** A tagged argument of the command line *)
Definition tagged (p : parser) (args : list string) (xt : string * tag) : Prop :=
  In (fst xt) args /\ tag_ok p (fst xt) (snd xt) /\
  match snd xt with TDash => fst xt = "--" | TArg => fst xt = "--" -> (2 <= count "--" args)%Z | _ => True end.
Definition dashes (l : list (string * tag)) : nat := List.length (filter is_dash (map snd l)).
Lemma tagged_mono p y args xt : tagged p args xt -> tagged p (y :: args) xt.
Proof.
  intros [H1 [H2 H3]]. split; [now right|]. split; [exact H2|]. destruct (snd xt); auto. intros E. specialize (H3 E). pose proof (count_cons_mono "--" y args). lia.
Qed.
Lemma tags_ok p args l : tags p args = Done l -> Forall (tagged p args) l /\ (dashes l <= 1)%nat /\ map fst l = args.
Proof.
  revert l. induction args as [|s args IH]; intros l E; cbn [tags] in E.
  - injection E as <-. split; [constructor|]. split; [cbn; lia|reflexivity].
  - destruct (String.eqb_spec s "--") as [->|N].
    + injection E as <-. split; [|split].
      * constructor; [split; [now left|]; cbn; auto|]. apply Forall_forall. intros xt H. apply in_map_iff in H. destruct H as [x [<- Hx]].
        split; [now right|]. split; [exact I|]. cbn [fst snd]. intros ->. pose proof (count_In "--" args Hx). cbn [count]. rewrite eqb_refl. lia.
      * unfold dashes. cbn. rewrite map_map. cbn. clear. induction args; cbn; [lia|exact IHargs].
      * cbn. rewrite map_map. cbn. now rewrite map_id.
    + apply obind_inv in E. destruct E as [t [E1 E]]. apply obind_inv in E. destruct E as [r [E2 E]]. injection E as <-.
      destruct (IH r E2) as [I1 [I2 I3]]. destruct (parse_optional_ok _ _ _ E1) as [T1 T2]. split; [|split].
      * constructor.
        -- split; [now left|]. split; [exact T1|]. cbn. destruct t; [discriminate T2|now intros|exact I].
        -- eapply Forall_impl; [|exact I1]. intros xt. apply tagged_mono.
      * unfold dashes. cbn. rewrite T2. exact I2.
      * cbn. now rewrite I3.
Qed.

(** * Values *)
Section Sound.
  Variable accepts : conv -> string -> bool.
  Variable p : parser.
  Variable sub : subcall.
  Variable args : list string.
  Hypothesis Hwf : wf_parser p = true.
  Hypothesis Hone : forall a b, In a (p_actions p) -> In b (p_actions p) -> a_kind a = Subs -> a_kind b = Subs -> a = b.
  Hypothesis Hsub : forall name rest ns ex, sub name rest = Done (ns, ex) ->
    NoDup (dkeys ns) /\ forall a, In a (p_actions p) -> dget ns (a_dest a) = None.
  Notation take := (take accepts).
  Notation given_or_lost := (given_or_lost accepts).
  Notation given := (given accepts).
  Notation allowed := (allowed accepts).
  Notation convert := (convert accepts).
  Notation get_values := (get_values accepts).

  Definition from (s : string) : Prop := from_args args s.
  Lemma from_In x : In x args -> from x.
  Proof. intros H. exists x. split; [exact H|apply suffix_refl]. Qed.
  Definition chunk_ok (a : action) (chunk : list string) : Prop :=
    match a_nargs a with
    | N0 => chunk = []
    | N1 => exists x, chunk = [x] /\ from x
    | NPlus => chunk <> [] /\ Forall from chunk
    | NParser => False
    end.
  Lemma convert_inv a s v : convert a s = Done v -> v = VConv (a_conv a) s /\ allowed a s.
  Proof.
    rewrite convert_spec. destruct (allowedb accepts a s) eqn:E; intros H; [|discriminate H]. injection H as <-. split; [reflexivity|now apply allowedb_spec].
  Qed.
  Lemma convert_all_inv a l v : omapM (convert a) l = Done v -> v = map (VConv (a_conv a)) l /\ Forall (allowed a) l.
  Proof.
    rewrite convert_all. destruct (forallb _ l) eqn:E; intros H; [|discriminate H]. injection H as <-. split; [reflexivity|].
    apply Forall_forall. intros x Hx. apply (allowedb_spec accepts). exact (proj1 (forallb_forall _ _) E x Hx).
  Qed.
  Lemma wf_cases a : In a (p_actions p) ->
    (a_opts a = [] /\ ((a_kind a = Store /\ (a_nargs a = N1 \/ a_nargs a = NPlus) /\ exists d, a_default a = Some d) \/ (a_kind a = Subs /\ a_nargs a = NParser /\ a_default a = None /\ a_required a = false))) \/
    (a_opts a <> [] /\ a_required a = false /\
      ((a_kind a = Store /\ (a_nargs a = N1 \/ a_nargs a = NPlus) /\ exists d, a_default a = Some d) \/
       (a_kind a = Append /\ a_nargs a = N1 /\ a_default a = Some (VList [])) \/
       (a_kind a = StoreTrue /\ a_nargs a = N0 /\ a_default a = Some (VBool false)) \/
       (a_kind a = ShowHelp /\ a_nargs a = N0 /\ a_default a = None))).
  Proof.
    intros Ha. apply (wf_act _ _ Hwf) in Ha. unfold wf_action in Ha. apply andb_prop in Ha. destruct Ha as [_ W].
    destruct (a_opts a) as [|o os].
    - left. split; [reflexivity|]. destruct (a_kind a), (a_nargs a), (a_default a) as [d|]; try discriminate W; destruct (a_required a); try discriminate W; eauto 10.
    - right. split; [discriminate|]. destruct (a_kind a), (a_nargs a), (a_default a) as [[| [] | | |[]]|]; try discriminate W; destruct (a_required a); try discriminate W;
        (split; [reflexivity|]); eauto 10.
  Qed.

  Record inv (done ps : list action) (s : st) : Prop := {
    inv_pos : positionals p = done ++ ps;
    inv_val : forall a, In a (p_actions p) -> storing a ->
      (In (a_dest a) (s_seen s) -> exists v, dget (s_ns s) (a_dest a) = Some v /\ given_or_lost args a v) /\
      (~ In (a_dest a) (s_seen s) -> dget (s_ns s) (a_dest a) = a_default a);
    inv_done : forall a, In a (positionals p) -> (In (a_dest a) (s_seen s) <-> In a done);
    inv_keys : NoDup (dkeys (s_ns s));
    inv_sub : forall a, In a (p_actions p) -> a_kind a = Subs ->
      (In (a_dest a) (s_seen s) -> exists name rest ns ex, sub name rest = Done (ns, ex) /\ incl ex (s_extras s) /\ incl (name :: rest) args /\ (count "--" rest <= count "--" args)%Z /\
         forall k, ~ In k (map a_dest (p_actions p)) -> dget (s_ns s) k = match dget ns k with Some v => Some v | None => dget (p_defaults p) k end) /\
      (~ In (a_dest a) (s_seen s) -> forall k, ~ In k (map a_dest (p_actions p)) -> dget (s_ns s) k = dget (p_defaults p) k);
    inv_nosub : (forall a, In a (p_actions p) -> a_kind a <> Subs) -> forall k, ~ In k (map a_dest (p_actions p)) -> dget (s_ns s) k = dget (p_defaults p) k;
    inv_none : forall a, In a (p_actions p) -> ~ storing a -> dget (s_ns s) (a_dest a) = None }.
  Lemma inv_init : inv [] (positionals p) (init_st p).
  Proof.
    destruct (initial_spec p Hwf) as [I1 [I2 I3]]. constructor; cbn.
    - reflexivity.
    - intros a Ha _. split; [intros []|]. intros _. now apply I1.
    - intros a _. split; intros [].
    - exact I3.
    - intros a Ha _. split; [intros []|]. intros _. exact I2.
    - intros _. exact I2.
    - intros a Ha N. rewrite (I1 a Ha). unfold storing in N.
      destruct (wf_cases a Ha) as [[_ [[K _]|[_ [_ [D _]]]]]|[_ [_ [[K _]|[[K _]|[[K _]|[_ [_ D]]]]]]]]; tauto.
  Qed.
  (** Storing a value *)
  Lemma inv_store done ps s a v done' ps' : inv done ps s -> In a (p_actions p) -> storing a -> given_or_lost args a v ->
    (a_opts a <> [] -> done' = done /\ ps' = ps) -> (a_opts a = [] -> ps = a :: ps' /\ done' = done ++ [a]) ->
    inv done' ps' (mkSt (dset (s_ns s) (a_dest a) v) (a_dest a :: s_seen s) (s_extras s)).
  Proof.
    intros [P V D K S NS NN] Ha St G O1 O2.
    assert (forall k, ~ In k (map a_dest (p_actions p)) -> dget (dset (s_ns s) (a_dest a) v) k = dget (s_ns s) k) as Q.
    { intros k Hk. rewrite dget_dset. destruct (eqb_spec k (a_dest a)) as [->|]; [elim Hk; now apply in_map|reflexivity]. }
    assert (forall b, In b (p_actions p) -> a_kind b = Subs -> a_dest a <> a_dest b) as NB.
    { intros b Hb Kb E. apply (wf_dest _ _ _ Hwf Ha Hb) in E. subst b. destruct St as [St|[St|St]]; congruence. }
    assert (forall b, In b (p_actions p) -> ~ storing b -> dget (dset (s_ns s) (a_dest a) v) (a_dest b) = None) as NN'.
    { intros b Hb Nb. rewrite dget_dset. destruct (eqb_spec (a_dest b) (a_dest a)) as [E|]; [|now apply NN]. apply (wf_dest _ _ _ Hwf Hb Ha) in E. subst b. now elim Nb. }
    assert (a_opts a = [] \/ a_opts a <> []) as [O|O] by (destruct (a_opts a); [now left|now right]).
    - destruct (O2 O) as [-> ->]. constructor; cbn [s_ns s_seen s_extras].
      + rewrite P, <- app_assoc. reflexivity.
      + intros b Hb Sb. destruct (eqb_spec (a_dest b) (a_dest a)) as [E|E].
        * apply (wf_dest _ _ _ Hwf Hb Ha) in E. subst b. split; [|intros N; elim N; now left]. intros _. exists v. split; [apply dget_dset_same|exact G].
        * rewrite dget_dset. destruct (eqb_spec (a_dest b) (a_dest a)); [congruence|]. destruct (V b Hb Sb) as [V1 V2]. split.
          -- intros [Z|Z]; [congruence|now apply V1].
          -- intros Z. apply V2. intros Z'. apply Z. now right.
      + intros b Hb. rewrite in_app_iff. cbn [In]. split.
        * intros [E|E]; [|left; now apply D]. right. left. assert (In b (p_actions p)) as Hb' by (unfold positionals in Hb; now apply filter_In in Hb).
          apply (wf_dest _ _ _ Hwf Ha Hb' E).
        * intros [E|[<-|[]]]; [right; now apply D|now left].
      + now apply dset_wf.
      + intros b Hb Kb. destruct (S b Hb Kb) as [S1 S2]. split.
        * intros [E|E]; [now elim (NB b Hb Kb)|]. destruct (S1 E) as [name [rest [ns [ex [X1 [X2 [X3 [X4 X5]]]]]]]]. exists name, rest, ns, ex.
          split; [exact X1|]. split; [exact X2|]. split; [exact X3|]. split; [exact X4|]. intros k Hk. rewrite (Q k Hk). now apply X5.
        * intros N k Hk. rewrite (Q k Hk). apply S2; [|exact Hk]. intros N'. apply N. now right.
      + intros N k Hk. rewrite (Q k Hk). now apply NS.
      + exact NN'.
    - destruct (O1 O) as [-> ->]. constructor; cbn [s_ns s_seen s_extras].
      + exact P.
      + intros b Hb Sb. destruct (eqb_spec (a_dest b) (a_dest a)) as [E|E].
        * apply (wf_dest _ _ _ Hwf Hb Ha) in E. subst b. split; [|intros N; elim N; now left]. intros _. exists v. split; [apply dget_dset_same|exact G].
        * rewrite dget_dset. destruct (eqb_spec (a_dest b) (a_dest a)); [congruence|]. destruct (V b Hb Sb) as [V1 V2]. split.
          -- intros [Z|Z]; [congruence|now apply V1].
          -- intros Z. apply V2. intros Z'. apply Z. now right.
      + intros b Hb. split.
        * intros [E|E]; [|now apply D]. exfalso. unfold positionals in Hb. apply filter_In in Hb. destruct Hb as [Hb Ob].
          apply (wf_dest _ _ _ Hwf Ha Hb) in E. subst b. destruct (a_opts a); [now elim O|discriminate Ob].
        * intros E. right. now apply D.
      + now apply dset_wf.
      + intros b Hb Kb. destruct (S b Hb Kb) as [S1 S2]. split.
        * intros [E|E]; [now elim (NB b Hb Kb)|]. destruct (S1 E) as [name [rest [ns [ex [X1 [X2 [X3 [X4 X5]]]]]]]]. exists name, rest, ns, ex.
          split; [exact X1|]. split; [exact X2|]. split; [exact X3|]. split; [exact X4|]. intros k Hk. rewrite (Q k Hk). now apply X5.
        * intros N k Hk. rewrite (Q k Hk). apply S2; [|exact Hk]. intros N'. apply N. now right.
      + intros N k Hk. rewrite (Q k Hk). now apply NS.
      + exact NN'.
  Qed.
  Lemma inv_extras done ps s e : inv done ps s -> inv done ps (mkSt (s_ns s) (s_seen s) (s_extras s ++ e)).
  Proof.
    intros [P V D K S NS NN]. constructor; cbn; auto. intros a Ha Ka. destruct (S a Ha Ka) as [S1 S2]. split; [|exact S2].
    intros E. destruct (S1 E) as [name [rest [ns [ex [X1 [X2 [X3 [X4 X5]]]]]]]]. exists name, rest, ns, ex. split; [exact X1|]. split; [|auto].
    intros y Hy. apply in_or_app. left. now apply X2.
  Qed.
  Lemma take_opt done ps s a chunk s' : inv done ps s -> In a (p_actions p) -> a_opts a <> [] -> chunk_ok a chunk -> take p sub a chunk s = Done s' -> inv done ps s'.
  Proof.
    intros I Ha Ho C E. destruct (wf_cases a Ha) as [[O _]|[_ [R W]]]; [now elim Ho|].
    unfold ArgModel.take in E. unfold chunk_ok in C.
    destruct W as [[Ka [Na Da]]|[[Ka [Na Da]]|[[Ka [Na Da]]|[Ka [Na Da]]]]]; rewrite Ka in E.
    - apply obind_inv in E. destruct E as [v [E1 E2]]. injection E2 as <-. apply (inv_store done ps); auto; [now left| |intros Q; now elim Ho].
      left. unfold ArgSpec.given. rewrite Ka. unfold ArgModel.get_values in E1. destruct (a_opts a) as [|o os] eqn:Eo; [now elim Ho|].
      destruct Na as [Na|Na]; rewrite Na in *.
      + destruct C as [x [-> F]]. apply convert_inv in E1. destruct E1 as [-> A]. exists x. auto.
      + apply obind_inv in E1. destruct E1 as [l [E1 E2]]. injection E2 as <-. apply convert_all_inv in E1. destruct E1 as [-> A]. destruct C as [C F].
        destruct chunk as [|x chunk]; [now elim C|]. exists x, chunk. split; [reflexivity|]. rewrite Forall_forall in *. intros y Hy. split; auto. now apply F.
    - apply obind_inv in E. destruct E as [v [E1 E2]]. injection E2 as <-. apply (inv_store done ps); auto; [right; now right| |intros Q; now elim Ho].
      left. unfold ArgSpec.given. rewrite Ka. unfold ArgModel.get_values in E1. destruct (a_opts a) as [|o os] eqn:Eo; [now elim Ho|].
      rewrite Na in *. destruct C as [x [-> F]]. apply convert_inv in E1. destruct E1 as [-> A].
      destruct (inv_val _ _ _ I a Ha (or_intror (or_intror Ka))) as [V1 V2].
      destruct (In_dec string_dec (a_dest a) (s_seen s)) as [Q|Q].
      + destruct (V1 Q) as [v [-> [G|[G _]]]]; [|congruence]. unfold ArgSpec.given in G. rewrite Ka in G. destruct G as [y [l [-> G]]].
        exists y, (l ++ [x]). split; [now rewrite !map_cons, map_app|]. rewrite app_comm_cons. apply Forall_app. split; [exact G|]. constructor; [auto|constructor].
      + rewrite (V2 Q), Da. exists x, []. split; [reflexivity|]. constructor; [auto|constructor].
    - injection E as <-. apply (inv_store done ps); auto; [right; now left| |intros Q; now elim Ho]. left. unfold ArgSpec.given. now rewrite Ka.
    - discriminate E.
  Qed.

  (** Positionals *)
  Lemma remove_first_incl x l : incl (remove_first x l) l.
  Proof.
    induction l as [|y l IH]; cbn; [apply incl_refl|]. destruct (String.eqb x y); [now apply incl_tl, incl_refl|].
    intros z [->|Hz]; [now left|right; now apply IH].
  Qed.
  Lemma dashes_app l l' : dashes (l ++ l') = (dashes l + dashes l')%nat.
  Proof. unfold dashes. now rewrite map_app, filter_app, app_length. Qed.
  Lemma all_dash l : Forall (tagged p args) l -> forallb is_dash (map snd l) = true -> l = repeat ("--", TDash) (dashes l).
  Proof.
    induction 1 as [|[x t] l [_ [_ H]] _ IH]; intros D; [reflexivity|]. cbn in D. apply andb_prop in D. destruct D as [D1 D2]. destruct t; try discriminate D1.
    cbn in H. subst x. unfold dashes in *. cbn. f_equal. now apply IH.
  Qed.
  Lemma pos_arg n l : (n = N1 \/ n = NPlus \/ n = NParser) -> Forall (tagged p args) l -> pos_ok n (map snd l) = true ->
    exists k x r, l = repeat ("--", TDash) k ++ (x, TArg) :: r /\ (n = N1 -> forallb is_dash (map snd r) = true).
  Proof.
    intros Hn. induction 1 as [|[x t] l H F IH]; intros P; [destruct Hn as [->|[->| ->]]; discriminate P|].
    destruct t.
    - assert (pos_ok n (map snd l) = true) as P' by (destruct Hn as [->|[->| ->]]; exact P).
      destruct (IH P') as [k [y [r [-> R]]]]. exists (S k), y, r. split; [|exact R]. destruct H as [_ [_ H]]. cbn in H. now subst x.
    - exists 0%nat, x, l. split; [reflexivity|]. intros ->. exact P.
    - destruct Hn as [->|[->| ->]]; discriminate P.
  Qed.
  Lemma values_pos a l v : In a (p_actions p) -> a_opts a = [] -> a_kind a = Store -> Forall (tagged p args) l -> (dashes l <= 1)%nat ->
    pos_ok (a_nargs a) (map snd l) = true -> get_values a (map fst l) = Done v -> given_or_lost args a v.
  Proof.
    intros Ha O Ka F D P E. destruct (wf_cases a Ha) as [[_ [[_ [Na Da]]|[K _]]]|[Q _]]; [|congruence|congruence].
    assert (forall y, In y (map fst l) -> from y) as FR.
    { intros y Hy. apply in_map_iff in Hy. destruct Hy as [xt [<- Hx]]. rewrite Forall_forall in F. apply from_In. apply (F xt Hx). }
    unfold ArgModel.get_values in E. rewrite O in E.
    destruct Na as [Na|Na]; rewrite Na in *.
    - destruct (pos_arg N1 l (or_introl eq_refl) F P) as [k [x [r [-> R]]]]. specialize (R eq_refl).
      assert (Forall (tagged p args) r) as Fr by (apply Forall_app in F; destruct F as [_ F]; inversion F; assumption).
      assert (tagged p args (x, TArg)) as Fx by (apply Forall_app in F; destruct F as [_ F]; inversion F; assumption).
      rewrite (all_dash r Fr R) in *. set (j := dashes r) in *. clearbody j.
      rewrite dashes_app in D. assert (forall n, dashes (repeat ("--", TDash) n) = n) as DR by (intros n; unfold dashes; induction n; cbn in *; lia).
      change (("x", TArg) :: repeat ("--", TDash) j) with ([("x", TArg)] ++ repeat ("--", TDash) j) in *.
      assert (dashes ((x, TArg) :: repeat ("--", TDash) j) = j) as DJ by (unfold dashes in *; cbn; apply DR).
      rewrite DR, DJ in D.
      assert ((exists y, In y (map fst (repeat ("--", TDash) k ++ (x, TArg) :: repeat ("--", TDash) j)) /\ remove_first "--" (map fst (repeat ("--", TDash) k ++ (x, TArg) :: repeat ("--", TDash) j)) = [y]) \/
        (remove_first "--" (map fst (repeat ("--", TDash) k ++ (x, TArg) :: repeat ("--", TDash) j)) = [] /\ x = "--")) as Q.
      { destruct k as [|[|k]]; [|destruct j; [|lia]|lia].
        - destruct j as [|[|j]]; [| |lia]; cbn [repeat app map fst remove_first]; destruct (String.eqb_spec "--" x) as [<-|N].
          + right. auto.
          + left. exists x. split; [now left|reflexivity].
          + left. exists "--". split; [now left|reflexivity].
          + left. exists x. split; [now left|reflexivity].
        - left. exists x. cbn. auto. }
      destruct Q as [[y [Hy Z]]|[Z ->]]; rewrite Z in E.
      + apply convert_inv in E. destruct E as [-> A]. left. unfold ArgSpec.given. rewrite Ka, Na. exists y. split; [reflexivity|]. split; [exact A|now apply FR].
      + cbn in E. injection E as <-. right. split; [exact O|]. split; [reflexivity|]. destruct Fx as [_ [_ Fx]]. now apply Fx.
    - apply obind_inv in E. destruct E as [vs [E1 E2]]. injection E2 as <-. apply convert_all_inv in E1. destruct E1 as [-> A].
      destruct (remove_first "--" (map fst l)) as [|y ys] eqn:Rm.
      + right. split; [exact O|]. split; [reflexivity|].
        destruct (pos_arg NPlus l (or_intror (or_introl eq_refl)) F P) as [k [x [r [-> _]]]].
        assert (tagged p args (x, TArg)) as Fx by (apply Forall_app in F; destruct F as [_ F]; inversion F; assumption).
        destruct k as [|k].
        * cbn [repeat app map fst remove_first] in Rm. destruct (String.eqb_spec "--" x) as [<-|N]; [|discriminate Rm]. destruct Fx as [_ [_ Fx]]. now apply Fx.
        * cbn [repeat app map fst remove_first] in Rm. rewrite String.eqb_refl in Rm. destruct k; discriminate Rm.
      + left. unfold ArgSpec.given. rewrite Ka, Na. exists y, ys. split; [reflexivity|]. rewrite Forall_forall in *. intros z Hz. split; [now apply A|].
        apply FR. apply (remove_first_incl "--"). now rewrite Rm.
  Qed.
  Lemma count_app_le (x : string) l l' : (count x l <= count x (l ++ l') /\ count x l' <= count x (l ++ l'))%Z.
  Proof.
    rewrite count_app. pose proof (count_nonneg x l). pose proof (count_nonneg x l'). lia.
  Qed.
  Definition within (l : list (string * tag)) : Prop := Forall (tagged p args) l /\ (dashes l <= 1)%nat /\ (count "--" (map fst l) <= count "--" args)%Z.
  Lemma within_app l l' : within (l ++ l') -> within l /\ within l'.
  Proof.
    intros [H1 [H2 H3]]. apply Forall_app in H1. rewrite dashes_app in H2. rewrite map_app in H3. pose proof (count_app_le "--" (map fst l) (map fst l')).
    split; (split; [apply H1|split; lia]).
  Qed.
  Lemma within_parts k l : within l -> within (firstn k l) /\ within (skipn k l).
  Proof. intros H. apply within_app. now rewrite firstn_skipn. Qed.
  Lemma take_positional done ps s a l s' : inv done (a :: ps) s -> within l -> pos_ok (a_nargs a) (map snd l) = true -> take p sub a (map fst l) s = Done s' -> inv (done ++ [a]) ps s'.
  Proof.
    intros I [F [D C]] P E.
    assert (In a (positionals p)) as Hp by (rewrite (inv_pos _ _ _ I); apply in_or_app; right; now left).
    assert (In a (p_actions p) /\ a_opts a = []) as [Ha O].
    { unfold positionals in Hp. apply filter_In in Hp. destruct Hp as [Hp Q]. split; [exact Hp|]. now destruct (a_opts a). }
    destruct (wf_cases a Ha) as [[_ [[Ka [Na Da]]|[Ka [Na [Da Ra]]]]]|[Q _]]; [| |congruence].
    - unfold ArgModel.take in E. rewrite Ka in E. apply obind_inv in E. destruct E as [v [E1 E2]]. injection E2 as <-.
      apply (inv_store done (a :: ps)); auto; [now left| |congruence]. apply (values_pos a l v Ha O Ka F D P E1).
    - unfold ArgModel.take in E. rewrite Ka in E. destruct (map fst l) as [|name rest] eqn:L; [discriminate E|].
      apply obind_inv in E. destruct E as [[ns ex] [E1 E2]]. injection E2 as <-. destruct (Hsub _ _ _ _ E1) as [H1 H2].
      assert (forall b, In b (p_actions p) -> dget (fold_left (fun n kv => dset n (fst kv) (snd kv)) ns (s_ns s)) (a_dest b) = dget (s_ns s) (a_dest b)) as Q.
      { intros b Hb. rewrite dget_copy by exact H1. now rewrite (H2 b Hb). }
      assert (In a (p_actions p) -> ~ In a done) as ND.
      { intros _ K. pose proof (wf_nodup p Hwf) as N. assert (NoDup (positionals p)) as N'.
        { unfold positionals. apply NoDup_filter. exact (NoDup_map_inv _ _ N). }
        rewrite (inv_pos _ _ _ I) in N'. apply NoDup_remove_2 in N'. apply N'. apply in_or_app. now left. }
      destruct I as [PP V DD K S NS NN]. constructor; cbn [s_ns s_seen s_extras].
      + rewrite PP, <- app_assoc. reflexivity.
      + intros b Hb Sb. rewrite (Q b Hb). destruct (V b Hb Sb) as [V1 V2].
        assert (a_dest a <> a_dest b) as NB. { intros Z. apply (wf_dest _ _ _ Hwf Ha Hb) in Z. subst b. destruct Sb as [Sb|[Sb|Sb]]; congruence. }
        split; [intros [Z|Z]; [now elim NB|now apply V1]|]. intros Z. apply V2. intros Z'. apply Z. now right.
      + intros b Hb. rewrite in_app_iff. cbn [In]. split.
        * intros [Z|Z]; [|left; now apply DD]. right. left. assert (In b (p_actions p)) as Hb' by (unfold positionals in Hb; now apply filter_In in Hb).
          exact (wf_dest _ _ _ Hwf Ha Hb' Z).
        * intros [Z|[<-|[]]]; [right; now apply DD|now left].
      + clear - K. revert K. generalize (s_ns s). induction ns as [|[j w] ns IH]; intros n K; cbn; [exact K|]. apply IH. now apply dset_wf.
      + intros b Hb Kb. pose proof (Hone a b Ha Hb Ka Kb). subst b. split; [|intros N; elim N; now left]. intros _.
        exists name, rest, ns, ex. split; [exact E1|]. split; [apply incl_appr, incl_refl|].
        assert (incl (name :: rest) args) as IR. { intros y Hy. assert (In y (map fst l)) as Hy' by (rewrite L; exact Hy). apply in_map_iff in Hy'. destruct Hy' as [xt [<- Hx]]. rewrite Forall_forall in F. apply (F xt Hx). }
        split; [exact IR|]. split; [pose proof (count_cons_mono "--" name rest); lia|].
        intros k Hk. rewrite dget_copy by exact H1. destruct (dget ns k); [reflexivity|]. destruct (S a Ha Ka) as [_ S2]. apply S2; [|exact Hk].
        intros Z. apply (ND Ha). now apply DD.
      + intros N. now elim (N a Ha).
      + intros b Hb Nb. rewrite (Q b Hb). now apply NN.
  Qed.
  Lemma match_all_ok ns ts ks : match_all ns ts = Some ks -> List.length ks = List.length ns /\
    forall n k ns' ks', ns = n :: ns' -> ks = k :: ks' -> pos_ok n (firstn k ts) = true /\ match_all ns' (skipn k ts) = Some ks'.
  Proof.
    revert ts ks. induction ns as [|n ns IH]; intros ts ks E; [injection E as <-; split; [reflexivity|intros n k ns' ks' Q; discriminate Q]|].
    cbn [match_all] in E.
    assert (forall k, In k (lengths n ts) -> pos_ok n (firstn k ts) = true) as L by (intros k K; unfold lengths in K; now apply filter_In in K).
    revert E L. generalize (lengths n ts). intros l E L. induction l as [|k l IHl]; [discriminate E|].
    destruct (match_all ns (skipn k ts)) as [r|] eqn:R.
    - injection E as <-. split; [cbn; f_equal; exact (proj1 (IH _ _ R))|]. intros n' k' ns' ks' Q1 Q2. injection Q1 as <- <-. injection Q2 as <- <-.
      split; [apply L; now left|exact R].
    - apply IHl; [exact E|]. intros k' K. apply L. now right.
  Qed.
  Lemma take_pos_ok ps ks l s done ps' l' s' : inv done ps s -> within l ->
    (exists n, match_all (firstn n (map a_nargs ps)) (map snd l) = Some ks) ->
    take_pos accepts p sub ps ks l s = Done (ps', l', s') -> exists done', inv done' ps' s' /\ within l' /\ exists k, l' = skipn k l.
  Proof.
    revert ks l s done. induction ps as [|a ps IH]; intros ks l s done I W [n M] E.
    - cbn in E. injection E as <- <- <-. exists done. split; [exact I|]. split; [exact W|]. exists 0%nat. reflexivity.
    - destruct ks as [|k ks]; [cbn in E; injection E as <- <- <-; exists done; split; [exact I|]; split; [exact W|]; exists 0%nat; reflexivity|].
      cbn [take_pos] in E. apply obind_inv in E. destruct E as [s1 [E1 E2]].
      destruct n as [|n]; [discriminate M|]. cbn [map firstn] in M. destruct (match_all_ok _ _ _ M) as [_ Q].
      destruct (Q _ _ _ _ eq_refl eq_refl) as [Q1 Q2]. rewrite firstn_map in Q1. rewrite skipn_map in Q2.
      destruct (within_parts k l W) as [W1 W2].
      destruct (IH ks (skipn k l) s1 (done ++ [a])) as [done' [I' [W' [j J]]]]; auto.
      + exact (take_positional _ _ _ _ _ _ I W1 Q1 E1).
      + exists n. exact Q2.
      + exists done'. split; [exact I'|]. split; [exact W'|]. exists (k + j)%nat. rewrite J. clear. revert l. induction k as [|k IHk]; intros l; [reflexivity|]. destruct l as [|x l]; [now rewrite !skipn_nil|]. cbn. apply IHk.
  Qed.
  Lemma match_partial_ok n ns ts : exists m, match_all (firstn m ns) ts = Some (match_partial n ns ts).
  Proof.
    induction n as [|n IH]; [exists 0%nat; reflexivity|]. cbn [match_partial]. destruct (match_all (firstn (S n) ns) ts) eqn:E; [exists (S n); exact E|exact IH].
  Qed.
  Lemma consume_positionals_ok ps l s done ps' l' s' : inv done ps s -> within l -> consume_positionals accepts p sub ps l s = Done (ps', l', s') ->
    exists done', inv done' ps' s' /\ within l' /\ exists k, l' = skipn k l.
  Proof. intros I W E. exact (take_pos_ok _ _ _ _ _ _ _ _ I W (match_partial_ok _ _ _) E). Qed.

  (** Options *)
  Lemma match_opt_ok a l k : (a_nargs a <> NParser) -> Forall (tagged p args) l -> match_opt (a_nargs a) (map snd l) = Some k -> chunk_ok a (map fst (firstn k l)).
  Proof.
    intros Hn F M. unfold chunk_ok. destruct (a_nargs a); cbn in M.
    - injection M as <-. reflexivity.
    - destruct l as [|[x t] l]; [discriminate M|]. cbn in M. destruct t; try discriminate M. injection M as <-. cbn. exists x. split; [reflexivity|].
      inversion F as [|? ? [F1 _] _]; subst. now apply from_In.
    - assert (Forall from (map fst (firstn k l))) as Q.
      { apply Forall_forall. intros y Hy. apply in_map_iff in Hy. destruct Hy as [xt [<- Hx]]. rewrite Forall_forall in F. apply from_In. apply (F xt).
        rewrite <- (firstn_skipn k l). apply in_or_app. now left. }
      split; [|exact Q]. destruct l as [|[x t] l]; [discriminate M|]. cbn in M. destruct t; try discriminate M. injection M as <-. discriminate.
    - now elim Hn.
  Qed.
  Definition opt_ok (ac : action * list string) : Prop := In (fst ac) (p_actions p) /\ a_opts (fst ac) <> [] /\ chunk_ok (fst ac) (snd ac).
  Lemma find_opt_ok o a : find_opt p o = Some a -> In a (p_actions p) /\ a_opts a <> [] /\ a_nargs a <> NParser.
  Proof.
    intros F. destruct (find_opt_good p a o Hwf F) as [F1 [F2 _]]. split; [exact F1|].
    destruct (wf_cases a F1) as [[O _]|[O [_ W]]]; [rewrite O in F2; destruct F2|]. split; [exact O|].
    destruct W as [[_ [[N|N] _]]|[[_ [N _]]|[[_ [N _]]|[_ [N _]]]]]; congruence.
  Qed.
  Lemma opt_chain_ok e : forall a o sep l acc acts ex l' x, In a (p_actions p) -> a_opts a <> [] -> In x args -> suffix e x -> Forall (tagged p args) l -> Forall opt_ok acc ->
    opt_chain p a o sep e l acc = Done (acts, ex, l') -> Forall opt_ok acts /\ exists k, l' = skipn k l.
  Proof.
    induction e as [e IH] using (well_founded_induction (Wf_nat.well_founded_ltof string String.length)).
    intros a o sep l acc acts ex l' x Ha Ho Hx Hs F A E.
    assert (a_nargs a <> N0 -> a_nargs a <> NParser -> Forall opt_ok (acc ++ [(a, [e])])) as Q.
    { intros N1' N2'. apply Forall_app. split; [exact A|]. constructor; [|constructor]. split; [exact Ha|]. split; [exact Ho|]. unfold chunk_ok. cbn [fst snd].
      assert (from e) as Fe by (exists x; auto). destruct (a_nargs a); [congruence|eauto| |congruence]. split; [discriminate|]. constructor; [exact Fe|constructor]. }
    assert (a_nargs a <> NParser) as NP.
    { destruct (wf_cases a Ha) as [[O _]|[_ [_ W]]]; [congruence|]. destruct W as [[_ [[N|N] _]]|[[_ [N _]]|[[_ [N _]]|[_ [N _]]]]]; congruence. }
    destruct e as [|d e'].
    - cbn [opt_chain] in E. destruct (a_nargs a) eqn:N; try (injection E as <- _ <-; split; [apply Q; congruence|exists 0%nat; reflexivity]).
      destruct o as [|? [|? ?]]; discriminate E.
    - cbn [opt_chain] in E. destruct (a_nargs a) eqn:N; try (injection E as <- _ <-; split; [apply Q; congruence|exists 0%nat; reflexivity]).
      destruct o as [|o1 [|c o2]]; try discriminate E. destruct (Ascii.eqb c "-"); [discriminate E|]. destruct (sep || Ascii.eqb d "-"); [discriminate E|].
      assert (Forall opt_ok (acc ++ [(a, [])])) as A'.
      { apply Forall_app. split; [exact A|]. constructor; [|constructor]. split; [exact Ha|]. split; [exact Ho|]. unfold chunk_ok. cbn [fst snd]. now rewrite N. }
      destruct (find_opt p (String "-" (String d ""))) as [b|] eqn:Fb; [|injection E as <- _ <-; split; [exact A'|exists 0%nat; reflexivity]].
      destruct (find_opt_ok _ _ Fb) as [B1 [B2 B3]].
      destruct e' as [|f e''].
      + destruct (match_opt (a_nargs b) (map snd l)) as [k|] eqn:M; [|discriminate E]. injection E as <- _ <-. split; [|exists k; reflexivity].
        apply Forall_app. split; [exact A'|]. constructor; [|constructor]. split; [exact B1|]. split; [exact B2|]. cbn [fst snd]. now apply match_opt_ok.
      + apply suffix_cons in Hs. destruct (Ascii.eqb f "=").
        * apply suffix_cons in Hs. refine (IH e'' _ b _ _ l _ acts ex l' x B1 B2 Hx Hs F A' E). unfold Wf_nat.ltof. cbn. lia.
        * refine (IH (String f e'') _ b _ _ l _ acts ex l' x B1 B2 Hx Hs F A' E). unfold Wf_nat.ltof. cbn. lia.
  Qed.
  Lemma fold_take done ps acts s s' : inv done ps s -> Forall opt_ok acts ->
    fold_left (fun m ar => let! s := m in take p sub (fst ar) (snd ar) s) acts (Done s) = Done s' -> inv done ps s'.
  Proof.
    intros I A. revert s I. induction A as [|[a c] acts [A1 [A2 A3]] _ IH]; intros s I E; cbn [fold_left obind fst snd] in *; [now injection E as <-|].
    destruct (take p sub a c s) as [s1|e|] eqn:T.
    - exact (IH s1 (take_opt _ _ _ _ _ _ I A1 A2 A3 T) E).
    - exfalso. clear - E. assert (forall acts, fold_left (fun m ar => let! s := m in take p sub (fst ar) (snd ar) s) acts (Exit e) = Exit e) as Q by (induction acts0; auto). rewrite Q in E. discriminate E.
    - exfalso. clear - E. assert (forall acts, fold_left (fun m ar => let! s := m in take p sub (fst ar) (snd ar) s) acts (@Fuel st) = Fuel) as Q by (induction acts0; auto). rewrite Q in E. discriminate E.
  Qed.
  Lemma consume_optional_ok done ps arg t l s l' s' : inv done ps s -> within l -> tagged p args (arg, t) ->
    consume_optional accepts p sub arg t l s = Done (l', s') -> inv done ps s' /\ within l' /\ exists k, l' = skipn k l.
  Proof.
    intros I W [T1 [T2 _]] E. cbn [fst snd] in *. unfold consume_optional in E. destruct t as [| |[a|] o sep e].
    - injection E as <- <-. split; [exact I|]. split; [exact W|]. exists 0%nat. reflexivity.
    - injection E as <- <-. split; [exact I|]. split; [exact W|]. exists 0%nat. reflexivity.
    - destruct T2 as [A1 [A2 A3]]. assert (a_opts a <> []) as A4 by (intros Q; rewrite Q in A2; destruct A2).
      assert (a_nargs a <> NParser) as NP.
      { destruct (wf_cases a A1) as [[O _]|[_ [_ Z]]]; [congruence|]. destruct Z as [[_ [[N|N] _]]|[[_ [N _]]|[[_ [N _]]|[_ [N _]]]]]; congruence. }
      apply obind_inv in E. destruct E as [[[acts ex] l2] [E1 E2]]. apply obind_inv in E2. destruct E2 as [s2 [E2 E3]]. injection E3 as <- <-.
      assert (Forall opt_ok acts /\ exists k, l2 = skipn k l) as [Q [k ->]].
      { destruct e as [e|].
        - exact (opt_chain_ok e a o sep l [] acts ex l2 arg A1 A4 T1 A3 (proj1 W) (Forall_nil _) E1).
        - destruct (match_opt (a_nargs a) (map snd l)) as [k|] eqn:M; [|discriminate E1]. injection E1 as <- _ <-. split; [|exists k; reflexivity].
          constructor; [|constructor]. split; [exact A1|]. split; [exact A4|]. cbn [fst snd]. apply match_opt_ok; [exact NP|apply W|exact M]. }
      split; [|split; [exact (proj2 (within_parts k l W))|exists k; reflexivity]].
      refine (fold_take _ _ _ _ _ _ Q E2). now apply inv_extras.
    - injection E as <- <-. split; [now apply inv_extras|]. split; [exact W|]. exists 0%nat. reflexivity.
  Qed.
  Lemma upto_opt_skip l ex l' : upto_opt l = (ex, l') -> exists k, l' = skipn k l.
  Proof.
    revert ex l'. induction l as [|[x t] l IH]; intros ex l' E; cbn in E; [injection E as _ <-; exists 0%nat; reflexivity|].
    destruct (is_opt t); [injection E as _ <-; exists 0%nat; reflexivity|]. destruct (upto_opt l) as [a b]. injection E as _ <-.
    destruct (IH _ _ eq_refl) as [k ->]. exists (S k). reflexivity.
  Qed.
  Lemma loop_ok fuel : forall done ps l s ps' l' s', inv done ps s -> within l -> parse_loop accepts fuel p sub ps l s = Done (ps', l', s') ->
    exists done', inv done' ps' s'.
  Proof.
    induction fuel as [|fuel IH]; intros done ps l s ps' l' s' I W E; cbn [parse_loop] in E.
    - destruct (negb _); [|discriminate E]. destruct (consume_positionals_ok _ _ _ _ _ _ _ I W E) as [done' [I' _]]. eauto.
    - destruct (negb _). { destruct (consume_positionals_ok _ _ _ _ _ _ _ I W E) as [done' [I' _]]. eauto. }
      assert (forall l, within l ->
        (let! (ps2, l2, s2) := consume_positionals accepts p sub ps l s in
         if Nat.ltb (List.length l2) (List.length l) then parse_loop accepts fuel p sub ps2 l2 s2
         else let (ex, l3) := upto_opt l2 in
           match l3 with
           | (arg, t) :: l4 => let! (l5, s5) := consume_optional accepts p sub arg t l4 (mkSt (s_ns s2) (s_seen s2) (s_extras s2 ++ ex)) in parse_loop accepts fuel p sub ps2 l5 s5
           | [] => Fuel
           end) = Done (ps', l', s') -> exists done', inv done' ps' s') as B.
      { clear E W l. intros l W E. apply obind_inv in E. destruct E as [[[ps2 l2] s2] [E1 E2]]. destruct (consume_positionals_ok _ _ _ _ _ _ _ I W E1) as [done2 [I2 [W2 _]]].
        destruct (Nat.ltb _ _); [exact (IH _ _ _ _ _ _ _ I2 W2 E2)|]. destruct (upto_opt l2) as [ex l3] eqn:U. destruct (upto_opt_skip _ _ _ U) as [k K].
        destruct l3 as [|[arg t] l4]; [discriminate E2|]. apply obind_inv in E2. destruct E2 as [[l5 s5] [E2 E3]].
        pose proof (proj2 (within_parts k l2 W2)) as W3. rewrite <- K in W3. destruct (within_app [(arg, t)] l4 W3) as [[W4 _] W5]. inversion W4 as [|? ? W6 _]; subst.
        destruct (consume_optional_ok _ _ _ _ _ _ _ _ (inv_extras _ _ _ ex I2) W5 W6 E2) as [I3 [W7 _]]. exact (IH _ _ _ _ _ _ _ I3 W7 E3). }
      destruct l as [|[arg t] l2]; [exact (B [] W E)|]. destruct t as [| |a o sep e].
      + exact (B _ W E).
      + exact (B _ W E).
      + apply obind_inv in E. destruct E as [[l5 s5] [E2 E3]]. destruct (within_app [(arg, TOpt a o sep e)] l2 W) as [[W4 _] W5]. inversion W4 as [|? ? W6 _]; subst.
        destruct (consume_optional_ok _ _ _ _ _ _ _ _ I W5 W6 E2) as [I3 [W7 _]]. exact (IH _ _ _ _ _ _ _ I3 W7 E3).
  Qed.

  Theorem known_sound ns ex : parse_known accepts p sub args = Done (ns, ex) ->
    NoDup (dkeys ns) /\
    (forall a, In a (p_actions p) -> ~ storing a -> dget ns (a_dest a) = None) /\
    (forall a, In a (p_actions p) -> storing a -> exists v, dget ns (a_dest a) = Some v /\ (given_or_lost args a v \/ (a_required a = false /\ a_default a = Some v))) /\
    (((forall k, ~ In k (map a_dest (p_actions p)) -> dget ns k = dget (p_defaults p) k) /\
      (forall a x b y, positionals p = x ++ a :: y -> a_kind a = Subs -> In b y -> a_required b = false)) \/
     (exists name rest ns' ex', sub name rest = Done (ns', ex') /\ incl ex' ex /\ incl (name :: rest) args /\ (count "--" rest <= count "--" args)%Z /\
       forall k, ~ In k (map a_dest (p_actions p)) -> dget ns k = match dget ns' k with Some v => Some v | None => dget (p_defaults p) k end)).
  Proof.
    unfold parse_known. intros E. apply obind_inv in E. destruct E as [l [E1 E]]. apply obind_inv in E. destruct E as [[[ps l2] s] [E2 E3]].
    destruct (forallb _ _) eqn:R; [|discriminate E3]. injection E3 as <- <-.
    destruct (tags_ok _ _ _ E1) as [T1 [T2 T3]].
    assert (within l) as W by (split; [exact T1|split; [exact T2|rewrite T3; lia]]).
    destruct (loop_ok _ _ _ _ _ _ _ _ inv_init W E2) as [done I].
    split; [apply I|]. split; [exact (inv_none _ _ _ I)|]. split.
    - intros a Ha Sa. destruct (inv_val _ _ _ I a Ha Sa) as [V1 V2]. destruct (In_dec string_dec (a_dest a) (s_seen s)) as [Q|Q].
      + destruct (V1 Q) as [v [V3 V4]]. exists v. auto.
      + specialize (V2 Q). rewrite V2. pose proof (proj1 (forallb_forall _ _) R a Ha) as R'. cbv beta in R'. apply mem_nIn in Q. rewrite Q in R'.
        destruct (a_required a); [discriminate R'|].
        assert (exists d, a_default a = Some d) as [d ->]; [|eauto].
        destruct (wf_cases a Ha) as [[_ [[_ [_ D]]|[K _]]]|[_ [_ [[_ [_ D]]|[[_ [_ D]]|[[_ [_ D]]|[K _]]]]]]]; eauto; destruct Sa as [Sa|[Sa|Sa]]; congruence.
    - destruct (find (fun a => match a_kind a with Subs => true | _ => false end) (p_actions p)) as [a|] eqn:F.
      + apply find_some in F. destruct F as [Ha Ka]. assert (a_kind a = Subs) as Ka' by (destruct (a_kind a); try discriminate Ka; reflexivity).
        destruct (inv_sub _ _ _ I a Ha Ka') as [S1 S2]. destruct (In_dec string_dec (a_dest a) (s_seen s)) as [Q|Q].
        * right. destruct (S1 Q) as [name [rest [ns' [ex' [X1 [X2 [X3 [X4 X5]]]]]]]]. exists name, rest, ns', ex'. split; [exact X1|]. split; [now apply incl_appl|]. auto.
        * left. split; [exact (S2 Q)|]. intros a' x b y P K Hb.
          assert (In a' (p_actions p)) as Ha'. { assert (In a' (positionals p)) as Z by (rewrite P; apply in_or_app; right; now left). unfold positionals in Z. now apply filter_In in Z. }
          pose proof (Hone _ _ Ha Ha' Ka' K). subst a'.
          assert (In b (positionals p)) as Hbp by (rewrite P; apply in_or_app; right; now right).
          destruct (a_required b) eqn:Rb; [|reflexivity]. exfalso.
          assert (In b (p_actions p)) as Hb' by (unfold positionals in Hbp; now apply filter_In in Hbp).
          pose proof (proj1 (forallb_forall _ _) R b Hb') as R'. cbv beta in R'. rewrite Rb in R'. cbn in R'. apply mem_In in R'.
          apply (inv_done _ _ _ I b Hbp) in R'. apply Q. apply (inv_done _ _ _ I a); [rewrite P; apply in_or_app; right; now left|].
          (* positionals are done in order *)
          pose proof (inv_pos _ _ _ I) as PP. rewrite P in PP.
          assert (NoDup (positionals p)) as N by (unfold positionals; apply NoDup_filter; exact (NoDup_map_inv _ _ (wf_nodup p Hwf))). rewrite P in N.
          clear - PP N R' Hb. revert x PP N. induction done as [|z done IH]; intros x PP N; [destruct R'|].
          destruct x as [|x0 x]; cbn in PP; injection PP as <- PP; [now left|]. right.
          destruct R' as [<-|R'].
          -- exfalso. cbn in N. inversion N as [|? ? N1 N2]; subst. apply N1. apply in_or_app. right. now right.
          -- cbn in N. inversion N as [|? ? N1 N2]; subst. exact (IH R' x PP N2).
      + left. assert (forall a, In a (p_actions p) -> a_kind a <> Subs) as N.
        { intros a Ha K. pose proof (find_none _ _ F a Ha) as Z. cbv beta in Z. rewrite K in Z. discriminate Z. }
        split; [exact (inv_nosub _ _ _ I N)|]. intros a x b y P K _. exfalso. apply (N a); [|exact K].
        assert (In a (positionals p)) as Z by (rewrite P; apply in_or_app; right; now left). unfold positionals in Z. now apply filter_In in Z.
  Qed.

  (** Parsing ends. *)
  Hypothesis Hends : forall name rest, sub name rest <> Fuel.
  Lemma obind_fuel {A B} (m : out A) (f : A -> out B) : m <> Fuel -> (forall a, m = Done a -> f a <> Fuel) -> obind m f <> Fuel.
  Proof. destruct m; cbn; auto. intros _ _ Q. discriminate Q. Qed.
  Lemma values_fuel a l : get_values a l <> Fuel.
  Proof.
    assert (forall s, convert a s <> Fuel) as C by (intros s; rewrite convert_spec; destruct (allowedb accepts a s); discriminate).
    assert (forall l, omapM (convert a) l <> Fuel) as M by (intros l'; rewrite convert_all; destruct (forallb _ l'); discriminate).
    unfold ArgModel.get_values. destruct (a_nargs a); try (apply obind_fuel; [apply M|discriminate]).
    destruct (match a_opts a with [] => _ | _ => _ end) as [|x [|y r]]; try (apply obind_fuel; [apply M|discriminate]). apply C.
  Qed.
  Lemma take_fuel a l s : take p sub a l s <> Fuel.
  Proof.
    unfold ArgModel.take. destruct (a_kind a); try discriminate; try (apply obind_fuel; [apply values_fuel|discriminate]).
    destruct l; [discriminate|]. apply obind_fuel; [apply Hends|]. intros [ns ex] _. discriminate.
  Qed.
  Lemma consume_positionals_fuel ps l s : consume_positionals accepts p sub ps l s <> Fuel.
  Proof.
    unfold consume_positionals. generalize (match_partial (List.length ps) (map a_nargs ps) (map snd l)). intros ks. revert ks l s.
    induction ps as [|a ps IH]; intros ks l s; [discriminate|]. destruct ks as [|k ks]; [discriminate|]. cbn [take_pos].
    apply obind_fuel; [apply take_fuel|]. intros s' _. apply IH.
  Qed.
  Lemma opt_chain_fuel e : forall a o sep l acc, opt_chain p a o sep e l acc <> Fuel.
  Proof.
    induction e as [e IH] using (well_founded_induction (Wf_nat.well_founded_ltof string String.length)). intros a o sep l acc.
    destruct e as [|d e']; cbn [opt_chain]; destruct (a_nargs a); try discriminate; destruct o as [|o1 [|c o2]]; try discriminate.
    destruct (Ascii.eqb c "-"); [discriminate|]. destruct (sep || _); [discriminate|]. destruct (find_opt p _) as [b|]; [|discriminate].
    destruct e' as [|f e'']; [destruct (match_opt _ _); discriminate|].
    destruct (Ascii.eqb f "="); apply IH; unfold Wf_nat.ltof; cbn; lia.
  Qed.
  Lemma consume_optional_fuel arg t l s : consume_optional accepts p sub arg t l s <> Fuel.
  Proof.
    unfold consume_optional. destruct t as [| |[a|] o sep e]; try discriminate. apply obind_fuel.
    - destruct e as [e|]; [apply opt_chain_fuel|]. destruct (match_opt _ _); discriminate.
    - intros [[acts ex] l'] _. apply obind_fuel; [|discriminate].
      assert (forall acts m, m <> Fuel -> fold_left (fun m ar => let! s := m in take p sub (fst ar) (snd ar) s) acts m <> Fuel) as Q.
      { clear acts. induction acts as [|ac acts IH]; intros m M; [exact M|]. cbn [fold_left]. apply IH. apply obind_fuel; [exact M|]. intros s' _. apply take_fuel. }
      apply Q. discriminate.
  Qed.
  Lemma upto_opt_some l : existsb (fun x : string * tag => is_opt (snd x)) l = true -> exists ex arg t l', upto_opt l = (ex, (arg, t) :: l') /\ (List.length l' < List.length l)%nat.
  Proof.
    induction l as [|[x t] l IH]; intros E; [discriminate E|]. cbn [upto_opt existsb snd] in *. destruct (is_opt t) eqn:T.
    - exists [], x, t, l. split; [reflexivity|cbn; lia].
    - destruct (IH E) as [ex [arg [t' [l' [-> L]]]]]. exists (x :: ex), arg, t', l'. split; [reflexivity|cbn; lia].
  Qed.
  Lemma skipn_len {A} k (l : list A) : (List.length (skipn k l) <= List.length l)%nat.
  Proof. rewrite skipn_length. lia. Qed.
  Lemma loop_fuel fuel : forall done ps l s, inv done ps s -> within l -> (List.length l < fuel)%nat -> parse_loop accepts fuel p sub ps l s <> Fuel.
  Proof.
    induction fuel as [|fuel IH]; intros done ps l s I W L; [lia|]. cbn [parse_loop].
    destruct (existsb (fun x => is_opt (snd x)) l) eqn:X; cbn [negb]; [|apply consume_positionals_fuel].
    assert (forall l, within l -> existsb (fun x => is_opt (snd x)) l = true -> (List.length l < S fuel)%nat ->
        (let! (ps2, l2, s2) := consume_positionals accepts p sub ps l s in
         if Nat.ltb (List.length l2) (List.length l) then parse_loop accepts fuel p sub ps2 l2 s2
         else let (ex, l3) := upto_opt l2 in
           match l3 with
           | (arg, t) :: l4 => let! (l5, s5) := consume_optional accepts p sub arg t l4 (mkSt (s_ns s2) (s_seen s2) (s_extras s2 ++ ex)) in parse_loop accepts fuel p sub ps2 l5 s5
           | [] => Fuel
           end) <> Fuel) as B.
    { clear W L X l. intros l W X L. apply obind_fuel; [apply consume_positionals_fuel|]. intros [[ps2 l2] s2] E1.
      destruct (consume_positionals_ok _ _ _ _ _ _ _ I W E1) as [done2 [I2 [W2 [k K]]]].
      destruct (PeanoNat.Nat.ltb_spec (List.length l2) (List.length l)) as [Z|Z]; [apply (IH done2); auto; lia|].
      assert (l2 = l) as ->.
      { subst l2. rewrite skipn_length in Z. destruct k; [reflexivity|]. destruct l; [reflexivity|]. cbn in Z. lia. }
      destruct (upto_opt_some l X) as [ex [arg [t [l4 [U U']]]]]. rewrite U. destruct (upto_opt_skip _ _ _ U) as [j J].
      apply obind_fuel; [apply consume_optional_fuel|]. intros [l5 s5] E2.
      pose proof (proj2 (within_parts j l W)) as W3. rewrite <- J in W3. destruct (within_app [(arg, t)] l4 W3) as [[W4 _] W5]. inversion W4 as [|? ? W6 _]; subst.
      destruct (consume_optional_ok _ _ _ _ _ _ _ _ (inv_extras _ _ _ ex I2) W5 W6 E2) as [I3 [W7 [i ->]]].
      apply (IH done2); auto. pose proof (skipn_len i l4). lia. }
    destruct l as [|[arg t] l2]; [exact (B [] W X L)|]. destruct t as [| |a o sep e].
    - exact (B _ W X L).
    - exact (B _ W X L).
    - apply obind_fuel; [apply consume_optional_fuel|]. intros [l5 s5] E2. destruct (within_app [(arg, TOpt a o sep e)] l2 W) as [[W4 _] W5]. inversion W4 as [|? ? W6 _]; subst.
      destruct (consume_optional_ok _ _ _ _ _ _ _ _ I W5 W6 E2) as [I3 [W7 [i ->]]]. apply (IH done); auto. pose proof (skipn_len i l2). cbn in L. lia.
  Qed.
  Theorem known_ends : parse_known accepts p sub args <> Fuel.
  Proof.
    unfold parse_known. apply obind_fuel.
    - induction args as [|s l IH]; cbn [tags]; [discriminate|]. destruct (String.eqb s "--"); [discriminate|]. apply obind_fuel.
      + unfold parse_optional. destruct (negb _); [discriminate|]. destruct (find_opt p s); [discriminate|]. destruct (String.eqb s "-"); [discriminate|].
        destruct (let (o, e) := partition_eq s in match e, find_opt p o with Some x, Some a => Some (TOpt (Some a) o true (Some x)) | _, _ => None end); [discriminate|].
        destruct (option_tuples p s) as [|t [|t' ts]]; [destruct (_ || _)| |]; discriminate.
      + intros t _. apply obind_fuel; [exact IH|discriminate].
    - intros l E1. destruct (tags_ok _ _ _ E1) as [T1 [T2 T3]].
      assert (within l) as W by (split; [exact T1|split; [exact T2|rewrite T3; lia]]).
      apply obind_fuel; [exact (loop_fuel _ _ _ _ _ inv_init W (le_n _))|].
      intros [[ps l2] s] _. destruct (forallb _ _); discriminate.
  Qed.
End Sound.

(** * Programs *)
Definition wf_program (pr : program) : bool :=
  wf_parser (pr_main pr) && forallb (fun s => wf_parser (snd s)) (pr_subs pr) && nodupb (map fst (pr_subs pr)) &&
  Nat.leb (List.length (filter (fun a => match a_kind a with Subs => true | _ => false end) (p_actions (pr_main pr)))) 1 &&
  forallb (fun s => forallb (fun a => match a_kind a with Subs => false | _ => negb (mem (a_dest a) (map a_dest (p_actions (pr_main pr)))) || match a_kind a with ShowHelp => true | _ => false end end) (p_actions (snd s))) (pr_subs pr) &&
  forallb (fun s => forallb (fun k => negb (mem k (map a_dest (p_actions (pr_main pr))))) (map fst (p_defaults (snd s)))) (pr_subs pr).

Section Program.
  Variable accepts : conv -> string -> bool.
  Variable pr : program.
  Hypothesis Hwf : wf_program pr = true.
  Lemma prog_parts : wf_parser (pr_main pr) = true /\
    (forall a b, In a (p_actions (pr_main pr)) -> In b (p_actions (pr_main pr)) -> a_kind a = Subs -> a_kind b = Subs -> a = b) /\
    (forall name sp, dget (pr_subs pr) name = Some sp -> wf_parser sp = true /\
      (forall a, In a (p_actions sp) -> a_kind a <> Subs /\ (a_kind a <> ShowHelp -> ~ In (a_dest a) (map a_dest (p_actions (pr_main pr))))) /\
      (forall k, In k (map fst (p_defaults sp)) -> ~ In k (map a_dest (p_actions (pr_main pr))))).
  Proof.
    pose proof Hwf as W. unfold wf_program in W.
    apply andb_prop in W. destruct W as [W X1]. apply andb_prop in W. destruct W as [W X2]. apply andb_prop in W. destruct W as [W X3].
    apply andb_prop in W. destruct W as [W X4]. apply andb_prop in W. destruct W as [W X5].
    split; [exact W|]. split.
    - intros a b Ha Hb Ka Kb. apply PeanoNat.Nat.leb_le in X3.
      assert (In a (filter (fun a => match a_kind a with Subs => true | _ => false end) (p_actions (pr_main pr)))) as Fa by (apply filter_In; split; [exact Ha|now rewrite Ka]).
      assert (In b (filter (fun a => match a_kind a with Subs => true | _ => false end) (p_actions (pr_main pr)))) as Fb by (apply filter_In; split; [exact Hb|now rewrite Kb]).
      destruct (filter _ _) as [|x [|y l]]; [destruct Fa| |cbn in X3; lia]. destruct Fa as [<-|[]], Fb as [<-|[]]. reflexivity.
    - intros name sp D. apply dget_In in D.
      split; [exact (proj1 (forallb_forall _ _) X5 _ D)|]. split.
      + intros a Ha. pose proof (proj1 (forallb_forall _ _) X2 _ D) as Y. cbn [snd] in Y. pose proof (proj1 (forallb_forall _ _) Y a Ha) as Z. cbv beta in Z.
        destruct (a_kind a); try discriminate Z; (split; [discriminate|]); intros NH; try (now elim NH);
          rewrite Bool.orb_false_r in Z; apply Bool.negb_true_iff in Z; now apply mem_nIn.
      + intros k Hk. pose proof (proj1 (forallb_forall _ _) X1 _ D) as Y. cbn [snd] in Y. pose proof (proj1 (forallb_forall _ _) Y k Hk) as Z. cbv beta in Z.
        apply Bool.negb_true_iff in Z. now apply mem_nIn.
  Qed.
  Lemma no_sub_ok (sp : parser) name rest ns ex : no_sub name rest = Done (ns, ex) ->
    NoDup (dkeys ns) /\ forall a, In a (p_actions sp) -> dget ns (a_dest a) = None.
  Proof. intros E. discriminate E. Qed.
  Lemma sub_sound name sp rest ns ex : dget (pr_subs pr) name = Some sp -> parse_known accepts sp no_sub rest = Done (ns, ex) ->
    NoDup (dkeys ns) /\
    (forall a, In a (p_actions (pr_main pr)) -> dget ns (a_dest a) = None) /\
    (forall a, In a (p_actions sp) -> storing a -> exists v, dget ns (a_dest a) = Some v /\ (given_or_lost accepts rest a v \/ (a_required a = false /\ a_default a = Some v))) /\
    (forall k, ~ In k (map a_dest (p_actions sp)) -> dget ns k = dget (p_defaults sp) k).
  Proof.
    intros D E. destruct prog_parts as [W [_ Q]]. destruct (Q name sp D) as [Q1 [Q2 Q3]].
    destruct (known_sound accepts sp no_sub rest Q1) with (ns := ns) (ex := ex) as [K1 [K2 [K3 K4]]]; [| |exact E|].
    - intros a b Ha _ Ka _. now elim (proj1 (Q2 a Ha)).
    - intros name' rest' ns' ex'. apply no_sub_ok.
    - assert (forall k, ~ In k (map a_dest (p_actions sp)) -> dget ns k = dget (p_defaults sp) k) as K5.
      { destruct K4 as [[K4 _]|[name' [rest' [ns' [ex' [K4 _]]]]]]; [exact K4|discriminate K4]. }
      split; [exact K1|]. split; [|split; [exact K3|exact K5]].
      intros a Ha. destruct (In_dec string_dec (a_dest a) (map a_dest (p_actions sp))) as [I|I].
      + apply in_map_iff in I. destruct I as [b [Eb Hb]]. rewrite <- Eb. destruct (Q2 b Hb) as [_ Q4].
        assert (a_kind b = ShowHelp) as Kb.
        { destruct (a_kind b) eqn:Kb; try reflexivity; (elim Q4; [discriminate|rewrite Eb; now apply in_map]). }
        apply K2; [exact Hb|]. unfold storing. rewrite Kb. intros [Z|[Z|Z]]; discriminate Z.
      + rewrite (K5 _ I). destruct (dget (p_defaults sp) (a_dest a)) eqn:Z; [|reflexivity]. apply dget_In in Z. apply (in_map fst) in Z.
        elim (Q3 _ Z). cbn [fst]. exact (in_map a_dest _ _ Ha).
  Qed.
  Lemma subs_ok name rest ns ex : subs_of accepts pr name rest = Done (ns, ex) ->
    NoDup (dkeys ns) /\ forall a, In a (p_actions (pr_main pr)) -> dget ns (a_dest a) = None.
  Proof.
    unfold subs_of. destruct (dget (pr_subs pr) name) as [sp|] eqn:D; intros E; [|discriminate E].
    destruct (sub_sound _ _ _ _ _ D E) as [S1 [S2 _]]. auto.
  Qed.
  Lemma subs_end name rest : subs_of accepts pr name rest <> Fuel.
  Proof.
    unfold subs_of. destruct (dget (pr_subs pr) name) as [sp|] eqn:D; [|discriminate]. destruct prog_parts as [_ [_ Q]]. destruct (Q name sp D) as [Q1 [Q2 _]].
    apply known_ends; auto.
    - intros a b Ha _ Ka _. now elim (proj1 (Q2 a Ha)).
    - intros name' rest' ns' ex'. apply no_sub_ok.
    - intros name' rest'. discriminate.
  Qed.
  Theorem args_end args : parse_args accepts pr args <> Fuel.
  Proof.
    destruct prog_parts as [W [One _]]. unfold parse_args. apply obind_fuel.
    - apply known_ends; auto using subs_end. intros name rest ns ex. apply subs_ok.
    - intros [ns ex] _. destruct ex; discriminate.
  Qed.
  Lemma lost_mono rest args a v : incl rest args -> (count "--" rest <= count "--" args)%Z -> given_or_lost accepts rest a v -> given_or_lost accepts args a v.
  Proof.
    intros I C [G|[G1 [G2 G3]]]; [left|right; repeat split; auto; lia].
    assert (forall s, from_args rest s -> from_args args s) as F by (intros s [x [X1 X2]]; exists x; split; [now apply I|exact X2]).
    unfold given in *. destruct (a_kind a); auto.
    - destruct (a_nargs a).
      + destruct G as [s [l [-> G]]]. exists s, l. split; [reflexivity|]. eapply Forall_impl; [|exact G]. cbv beta. intuition.
      + destruct G as [s [-> [G1 G2]]]. exists s. auto.
      + destruct G as [s [l [-> G]]]. exists s, l. split; [reflexivity|]. eapply Forall_impl; [|exact G]. cbv beta. intuition.
      + destruct G as [s [l [-> G]]]. exists s, l. split; [reflexivity|]. eapply Forall_impl; [|exact G]. cbv beta. intuition.
    - destruct G as [s [l [-> G]]]. exists s, l. split; [reflexivity|]. eapply Forall_impl; [|exact G]. cbv beta. intuition.
  Qed.
  Theorem args_sound args ns : parse_args accepts pr args = Done ns ->
    has_values accepts args (pr_main pr) ns /\
    (((forall k, ~ In k (map a_dest (p_actions (pr_main pr))) -> dget ns k = dget (p_defaults (pr_main pr)) k) /\
      (forall a x b y, positionals (pr_main pr) = x ++ a :: y -> a_kind a = Subs -> In b y -> a_required b = false)) \/
     (exists name sp, In name args /\ dget (pr_subs pr) name = Some sp /\ has_values accepts args sp ns /\
       forall k, ~ In k (map a_dest (p_actions (pr_main pr))) -> ~ In k (map a_dest (p_actions sp)) ->
         dget ns k = match dget (p_defaults sp) k with Some v => Some v | None => dget (p_defaults (pr_main pr)) k end)).
  Proof.
    destruct prog_parts as [W [One Q]]. unfold parse_args. intros E. apply obind_inv in E. destruct E as [[ns0 ex] [E1 E2]]. destruct ex; [|discriminate E2]. injection E2 as ->.
    destruct (known_sound accepts _ _ args W One subs_ok ns [] E1) as [K1 [K2 [K3 K4]]]. split; [exact K3|].
    destruct K4 as [K4|[name [rest [ns' [ex' [X1 [X2 [X3 [X4 X5]]]]]]]]]; [now left|right].
    unfold subs_of in X1. destruct (dget (pr_subs pr) name) as [sp|] eqn:D; [|discriminate X1]. exists name, sp. split; [apply X3; now left|]. split; [exact D|].
    destruct (sub_sound _ _ _ _ _ D X1) as [S1 [S2 [S3 S4]]]. destruct (Q name sp D) as [Q1 [Q2 Q3]]. split.
    - intros a Ha Sa. destruct (S3 a Ha Sa) as [v [V1 V2]]. exists v. split.
      + rewrite X5; [now rewrite V1|]. apply Q2; [exact Ha|]. intros Z. destruct Sa as [Sa|[Sa|Sa]]; congruence.
      + destruct V2 as [V2|V2]; [left; exact (lost_mono _ _ _ _ (fun x Hx => X3 x (or_intror Hx)) X4 V2)|now right].
    - intros k K5 K6. rewrite (X5 k K5). now rewrite (S4 k K6).
  Qed.
End Program.
