(** Command lines the programs accept. *)
From Coq Require Import Ascii.
From Verif Require Import Base ArgModel ArgSpec ArgProofs.
Open Scope string_scope.
Open Scope list_scope.
Unset Implicit Arguments.

(** * Defaults *)
Lemma dget_add (n : namespace) k (v : value) k' :
  dget (if dhas n k then n else dset n k v) k' = match dget n k' with Some x => Some x | None => if eqb k' k then Some v else None end.
Proof.
  unfold dhas. destruct (dget n k) eqn:E.
  - destruct (dget n k') eqn:E'; [reflexivity|]. destruct (eqb_spec k' k); [congruence|reflexivity].
  - rewrite dget_dset. destruct (eqb_spec k' k) as [->|]; [now rewrite E|]. now destruct (dget n k').
Qed.
Lemma add_wf (n : namespace) k (v : value) : NoDup (dkeys n) -> NoDup (dkeys (if dhas n k then n else dset n k v)).
Proof. destruct (dhas n k); [trivial|]. apply dset_wf. Qed.
Definition add_default (n : namespace) (a : action) : namespace := match a_default a with Some v => if dhas n (a_dest a) then n else dset n (a_dest a) v | None => n end.
Lemma defaults_actions (l : list action) (n : namespace) : NoDup (map a_dest l) -> (forall a, In a l -> dget n (a_dest a) = None) ->
  (forall a, In a l -> dget (fold_left add_default l n) (a_dest a) = a_default a) /\
  (forall k, ~ In k (map a_dest l) -> dget (fold_left add_default l n) k = dget n k) /\
  (NoDup (dkeys n) -> NoDup (dkeys (fold_left add_default l n))).
Proof.
  revert n. induction l as [|b l IH]; intros n N Hn; cbn [fold_left map].
  - repeat split; [intros a []|trivial].
  - cbn in N. inversion N as [|? ? N1 N2]; subst.
    assert (forall k, k <> a_dest b -> dget (add_default n b) k = dget n k) as O.
    { intros k Hk. unfold add_default. destruct (a_default b); [|reflexivity]. rewrite dget_add. destruct (dget n k); [reflexivity|].
      destruct (eqb_spec k (a_dest b)); [now elim Hk|reflexivity]. }
    destruct (IH (add_default n b) N2) as [I1 [I2 I3]].
    { intros a Ha. rewrite O; [apply Hn; now right|]. intros E. apply N1. rewrite <- E. now apply in_map. }
    split; [|split].
    + intros a [<-|Ha]; [|now apply I1]. rewrite I2 by exact N1. unfold add_default.
      destruct (a_default b) as [v|] eqn:D; [|rewrite (Hn b (or_introl eq_refl)); reflexivity].
      rewrite dget_add, (Hn b (or_introl eq_refl)). destruct (eqb_spec (a_dest b) (a_dest b)); congruence.
    + intros k Hk. rewrite I2 by (intros Q; apply Hk; now right). apply O. intros ->. apply Hk. now left.
    + intros W. apply I3. unfold add_default. destruct (a_default b); [now apply add_wf|exact W].
Qed.
Definition add_pair (n : namespace) (kv : string * value) : namespace := if dhas n (fst kv) then n else dset n (fst kv) (snd kv).
Lemma defaults_pairs (l : list (string * value)) (n : namespace) :
  (forall k, dget (fold_left add_pair l n) k = match dget n k with Some v => Some v | None => dget l k end) /\
  (NoDup (dkeys n) -> NoDup (dkeys (fold_left add_pair l n))).
Proof.
  revert n. induction l as [|[j w] l IH]; intros n; cbn [fold_left].
  - split; [intros k; now destruct (dget n k)|trivial].
  - destruct (IH (add_pair n (j, w))) as [I1 I2]. split.
    + intros k. rewrite I1. unfold add_pair. cbn [fst snd]. rewrite dget_add. cbn [dget]. destruct (dget n k); [reflexivity|].
      destruct (eqb_spec k j) as [->|Q]; [reflexivity|]. reflexivity.
    + intros W. apply I2. unfold add_pair. now apply add_wf.
Qed.
Lemma wf_nodup p : wf_parser p = true -> NoDup (map a_dest (p_actions p)).
Proof.
  unfold wf_parser. intros H. repeat (apply andb_prop in H; destruct H as [H ?]). now apply nodupb_NoDup.
Qed.
Lemma initial_spec p : wf_parser p = true ->
  (forall a, In a (p_actions p) -> dget (initial p) (a_dest a) = a_default a) /\
  (forall k, ~ In k (map a_dest (p_actions p)) -> dget (initial p) k = dget (p_defaults p) k) /\
  NoDup (dkeys (initial p)).
Proof.
  intros H. change (initial p) with (fold_left add_pair (p_defaults p) (fold_left add_default (p_actions p) [])).
  destruct (defaults_actions (p_actions p) [] (wf_nodup p H) (fun _ _ => eq_refl)) as [A1 [A2 A3]].
  destruct (defaults_pairs (p_defaults p) (fold_left add_default (p_actions p) [])) as [P1 P2].
  split; [|split].
  - intros a Ha. rewrite P1, (A1 a Ha). destruct (a_default a); [reflexivity|].
    assert (~ In (a_dest a) (map fst (p_defaults p))) as Q.
    { unfold wf_parser in H. repeat (apply andb_prop in H; destruct H as [H ?]).
      intros K. match goal with F : forallb (fun k => negb (mem k _)) _ = true |- _ => pose proof (proj1 (forallb_forall _ _) F _ K) as M end.
      cbv beta in M. rewrite (proj2 (mem_In _ _) (in_map a_dest _ _ Ha)) in M. discriminate M. }
    destruct (dget (p_defaults p) (a_dest a)) eqn:E; [|reflexivity]. elim Q. apply dget_In in E. exact (in_map fst _ _ E).
  - intros k Hk. now rewrite P1, (A2 k Hk).
  - apply P2, A3. constructor.
Qed.

(** * Parsing *)
Section Parse.
  Variable accepts : conv -> string -> bool.
  Notation take := (take accepts).
  Notation parse_loop := (parse_loop accepts).
  Notation parse_known := (parse_known accepts).
  Notation acts := (acts accepts).

  Lemma item_tags_len p items : (List.length items <= List.length (flat_map (item_tags p) items))%nat.
  Proof. induction items as [|i items IH]; cbn; [lia|]. rewrite app_length. destruct i; cbn; lia. Qed.
  Definition init_st (p : parser) : st := mkSt (initial p) [] [].
  Definition finish (p : parser) (r : list action * list (string * tag) * st) : out (namespace * list string) :=
    let '(_, l2, s) := r in
    if forallb (fun a => negb (a_required a) || mem (a_dest a) (s_seen s)) (p_actions p) then Done (s_ns s, s_extras s ++ map fst l2) else Exit Usage.
  Lemma known_items p sub items rest l : wf_parser p = true -> Forall (fits p) items -> tags p rest = Done l ->
    (no_arg l = true \/ forallb (fun i => negb (is_many i)) items = true) ->
    exists f, parse_known p sub (flat_map words items ++ rest) =
      let! s := acts p items (init_st p) in let! r := parse_loop (S (List.length l) + f) p sub (positionals p) l s in finish p r.
  Proof.
    intros H F T M. unfold ArgModel.parse_known. rewrite (tags_items _ _ _ H F), T. cbn [obind].
    exists (List.length (flat_map (item_tags p) items) - List.length items)%nat.
    pose proof (item_tags_len p items).
    assert (S (List.length (flat_map (item_tags p) items ++ l)) = List.length items + (S (List.length l) + (List.length (flat_map (item_tags p) items) - List.length items)))%nat as ->
      by (rewrite app_length; lia).
    rewrite (loop_items accepts _ _ _ _ _ _ _ H F M). unfold init_st. now destruct (acts p items _).
  Qed.
  Lemma not_required p seen : wf_parser p = true -> (forall a, In a (positionals p) -> a_required a = true -> In (a_dest a) seen) ->
    forallb (fun a => negb (a_required a) || mem (a_dest a) seen) (p_actions p) = true.
  Proof.
    intros H Hp. apply forallb_forall. intros a Ha. destruct (a_required a) eqn:R; [|reflexivity]. cbn.
    apply mem_In, Hp; [|exact R]. apply filter_In. split; [exact Ha|]. destruct (a_opts a) eqn:O; [reflexivity|].
    pose proof (wf_act _ _ H Ha) as W. unfold wf_action in W. apply andb_prop in W. destruct W as [_ W]. rewrite O, R in W. cbn in W.
    destruct (a_kind a), (a_nargs a), (a_default a) as [[| [] | | |[]]|]; discriminate W.
  Qed.

  (** Help never stores anything. *)
  Lemma acts_none p a items s s' : wf_parser p = true -> In a (p_actions p) -> a_default a = None -> Forall (fits p) items ->
    acts p items s = Done s' -> dget (s_ns s) (a_dest a) = None -> dget (s_ns s') (a_dest a) = None.
  Proof.
    intros H Ha Hd. revert s. induction items as [|i items IH]; intros s F E D; cbn in E; [now injection E as <-|].
    inversion F as [|? ? [b [Hb Hi]] F']; subst. rewrite (find_opt_In _ _ _ H Hb (proj1 Hi)) in E.
    unfold act in E. destruct (forallb _ _); cbn [obind] in E; [|discriminate E].
    apply (IH _ F' E). cbn [s_ns]. rewrite dget_dset. destruct (eqb_spec (a_dest a) (a_dest b)) as [Q|]; [|exact D].
    exfalso. apply (wf_dest _ _ _ H Ha Hb) in Q. subst b. pose proof (wf_act _ _ H Ha) as W. unfold wf_action in W. apply andb_prop in W. destruct W as [_ W].
    rewrite Hd in W. destruct Hi as [Ho Hi]. destruct (a_opts a); [destruct Ho|].
    destruct i; cbn in Hi; destruct (a_kind a), (a_nargs a); try discriminate W;
      repeat match goal with K : _ /\ _ |- _ => destruct K end; try discriminate; match goal with K : _ \/ _ |- _ => destruct K; discriminate end.
  Qed.

  (** A parser that knows options only *)
  Lemma only_items p sub items : wf_parser p = true -> positionals p = [] -> Forall (fits p) items ->
    (Forall (good accepts p) items -> exists ns, parse_known p sub (flat_map words items) = Done (ns, []) /\
      (forall a d, In a (p_actions p) -> a_default a = Some d -> dget ns (a_dest a) = Some (expected a d items)) /\
      (forall k, ~ In k (map a_dest (p_actions p)) -> dget ns k = dget (p_defaults p) k) /\
      (forall a, In a (p_actions p) -> a_default a = None -> dget ns (a_dest a) = None) /\
      NoDup (dkeys ns)) /\
    (~ Forall (good accepts p) items -> parse_known p sub (flat_map words items) = Exit Usage).
  Proof.
    intros H P F. destruct (known_items p sub items [] [] H F eq_refl (or_introl eq_refl)) as [f E]. rewrite app_nil_r in E. rewrite E.
    destruct (initial_spec p H) as [I1 [I2 I3]].
    assert (forall a, In a (p_actions p) -> a_opts a <> []) as O.
    { intros a Ha Q. assert (In a (positionals p)) as K; [|now rewrite P in K]. apply filter_In. split; [exact Ha|]. now rewrite Q. }
    split.
    - intros G. destruct (acts_good accepts p items (init_st p) H F G) as [s [A1 [A2 [A3 [A4 [A5 A6]]]]]]. rewrite A1. cbn [obind].
      rewrite P. cbn [plus length ArgModel.parse_loop existsb negb consume_positionals match_partial map take_pos obind finish].
      exists (s_ns s). rewrite (not_required p (s_seen s) H) by (rewrite P; intros a []).
      split; [rewrite A2; reflexivity|]. split; [|split; [|split]].
      + intros a d Ha Hd. apply A4; auto. cbn. now rewrite (I1 a Ha).
      + intros k Hk. rewrite A3; [now apply I2|]. intros a Ha _ Q. apply Hk. rewrite <- Q. now apply in_map.
      + intros a Ha Hd. destruct (dget (s_ns s) (a_dest a)) eqn:Q; [|reflexivity]. exfalso.
        rewrite (acts_none p a items _ s H Ha Hd F A1) in Q; [discriminate Q|]. cbn. now rewrite (I1 a Ha).
      + exact (A6 I3).
    - intros G. now rewrite (acts_bad accepts p items _ H F G).
  Qed.

  (** * Commands *)
  Lemma dget_copy (l n : namespace) k : NoDup (dkeys l) ->
    dget (fold_left (fun n kv => dset n (fst kv) (snd kv)) l n) k = match dget l k with Some v => Some v | None => dget n k end.
  Proof.
    revert n. induction l as [|[j w] l IH]; intros n N; cbn [fold_left dget]; [reflexivity|]. cbn [dkeys map fst] in N. inversion N as [|? ? N1 N2]; subst.
    rewrite IH by exact N2. cbn [fst snd]. rewrite dget_dset. destruct (eqb_spec k j) as [->|]; [|reflexivity].
    destruct (dget l j) eqn:E; [|reflexivity]. elim N1. apply dget_In in E. exact (in_map fst _ _ E).
  Qed.

  (** Words the parser can make something of *)
  Definition readable (p : parser) (w : string) : Prop := String.eqb w "--" = false /\ exists t, parse_optional p w = Done t.
  Lemma plain_readable p w : plain w -> readable p w.
  Proof. intros H. split; [now apply plain_not_dashes|]. exists TArg. unfold parse_optional. unfold plain in H. now rewrite H. Qed.
  Lemma tags_readable p l rest r : Forall (readable p) l -> tags p rest = Done r -> exists m, tags p (l ++ rest) = Done (m ++ r) /\ map fst m = l.
  Proof.
    intros F T. induction F as [|w l [W [t Ht]] _ [m [IH E]]]; [exists []; auto|].
    exists ((w, t) :: m). cbn [app tags map fst]. rewrite W, Ht, IH. cbn [obind]. now rewrite E.
  Qed.
  Definition quiet (p sp : parser) : Prop := forall i, fits sp i -> Forall (readable p) (words i).
  Lemma quiet_items p sp items : quiet p sp -> Forall (fits sp) items -> Forall (readable p) (flat_map words items).
  Proof.
    intros Q F. induction F as [|i items Hi _ IH]; cbn; [constructor|]. apply Forall_app. split; [now apply Q|exact IH].
  Qed.

  Lemma filter_down (f : nat -> bool) k N : f k = true -> (k <= N)%nat -> (forall j, (k < j <= N)%nat -> f j = false) ->
    exists r, filter f (rev (seq 0 (S N))) = k :: r.
  Proof.
    intros Hk. induction N as [|N IH]; intros L Hj; rewrite seq_S, rev_app_distr; cbn [plus rev app filter].
    - assert (k = 0)%nat as -> by lia. rewrite Hk. eauto.
    - destruct (PeanoNat.Nat.eq_dec k (S N)) as [->|Q]; [rewrite Hk; eauto|]. rewrite Hj by lia. apply IH; [lia|]. intros j J. apply Hj. lia.
  Qed.
  Lemma lengths_first n ts k : pos_ok n (firstn k ts) = true -> (k <= List.length ts)%nat ->
    (forall j, (k < j <= List.length ts)%nat -> pos_ok n (firstn j ts) = false) -> exists r, lengths n ts = k :: r.
  Proof. intros H1 H2 H3. exact (filter_down (fun k => pos_ok n (firstn k ts)) k _ H1 H2 H3). Qed.
  Lemma match_last n ts k : pos_ok n (firstn k ts) = true -> (k <= List.length ts)%nat ->
    (forall j, (k < j <= List.length ts)%nat -> pos_ok n (firstn j ts) = false) -> match_all [n] ts = Some [k].
  Proof. intros H1 H2 H3. cbn [match_all]. destruct (lengths_first n ts k H1 H2 H3) as [r ->]. reflexivity. Qed.
  Lemma match_command ts : match_all [NParser] (TArg :: ts) = Some [S (List.length ts)].
  Proof.
    apply match_last; cbn [length]; [|lia|intros j J; lia]. cbn [firstn]. reflexivity.
  Qed.
  Lemma match_command_out ts : match_all [NParser; N1] (TArg :: ts ++ [TArg]) = Some [S (List.length ts); 1%nat].
  Proof.
    cbn [match_all].
    assert (exists r, lengths NParser (TArg :: ts ++ [TArg]) = S (S (List.length ts)) :: S (List.length ts) :: r) as [r ->].
    { unfold lengths. cbn [length]. rewrite app_length. cbn [length]. rewrite PeanoNat.Nat.add_1_r.
      rewrite seq_S, rev_app_distr. cbn [plus rev app filter]. rewrite (seq_S (S (List.length ts))), rev_app_distr. cbn [plus rev app filter firstn].
      cbn [pos_ok]. eauto. }
    assert (skipn (S (S (List.length ts))) (TArg :: ts ++ [TArg]) = []) as ->.
    { apply skipn_all2. cbn [length]. rewrite app_length. cbn. lia. }
    assert (skipn (S (List.length ts)) (TArg :: ts ++ [TArg]) = [TArg]) as ->.
    { cbn [skipn]. rewrite skipn_app, skipn_all, PeanoNat.Nat.sub_diag. reflexivity. }
    reflexivity.
  Qed.
  Lemma loop_nil f p sub ps s : parse_loop f p sub ps [] s = consume_positionals accepts p sub ps [] s.
  Proof. now destruct f. Qed.
  Lemma loop_pos f p sub ps x t l s : is_opt t = false ->
    (forall ps2 l2 s2, consume_positionals accepts p sub ps ((x, t) :: l) s = Done (ps2, l2, s2) -> ps2 = [] /\ l2 = []) ->
    parse_loop (S f) p sub ps ((x, t) :: l) s = consume_positionals accepts p sub ps ((x, t) :: l) s.
  Proof.
    intros T E. cbn [ArgModel.parse_loop]. destruct (negb _); [reflexivity|].
    assert (match t with TOpt _ _ _ _ => false | _ => true end = true) as T' by now destruct t.
    destruct t; try discriminate T';
    (destruct (consume_positionals accepts p sub ps ((x, _) :: l) s) as [[[ps2 l2] s2]| |]; cbn [obind]; try reflexivity;
     destruct (E _ _ _ eq_refl) as [-> ->]; cbn [length Nat.ltb Nat.leb]; rewrite loop_nil; reflexivity).
  Qed.
  Lemma loop_command f p sub a cmd l s : a_nargs a = NParser ->
    parse_loop (S f) p sub [a] ((cmd, TArg) :: l) s = let! s' := take p sub a (cmd :: map fst l) s in Done ([], [], s').
  Proof.
    intros N.
    assert (consume_positionals accepts p sub [a] ((cmd, TArg) :: l) s = let! s' := take p sub a (cmd :: map fst l) s in Done ([], [], s')) as C.
    { unfold consume_positionals. cbn [length map match_partial firstn snd]. rewrite N, match_command, map_length. cbn [take_pos firstn skipn map fst].
      rewrite firstn_all, skipn_all. reflexivity. }
    rewrite <- C. apply loop_pos; [reflexivity|]. intros ps2 l2 s2 E. rewrite C in E. destruct (take p sub a _ s); cbn in E; [|discriminate E|discriminate E].
    injection E as <- <- _. auto.
  Qed.
  Lemma loop_command_out f p sub a b cmd l o s : a_nargs a = NParser -> a_nargs b = N1 ->
    parse_loop (S f) p sub [a; b] ((cmd, TArg) :: l ++ [(o, TArg)]) s =
    let! s' := take p sub a (cmd :: map fst l) s in let! s'' := take p sub b [o] s' in Done ([], [], s'').
  Proof.
    intros Na Nb.
    assert (consume_positionals accepts p sub [a; b] ((cmd, TArg) :: l ++ [(o, TArg)]) s =
      let! s' := take p sub a (cmd :: map fst l) s in let! s'' := take p sub b [o] s' in Done ([], [], s'')) as C.
    { unfold consume_positionals. cbn [length map match_partial firstn snd]. rewrite Na, Nb, map_app. cbn [map snd]. rewrite match_command_out, map_length.
      cbn [take_pos firstn skipn map fst].
      rewrite firstn_app, firstn_all, PeanoNat.Nat.sub_diag, skipn_app, skipn_all, PeanoNat.Nat.sub_diag. cbn [firstn skipn app]. rewrite app_nil_r. reflexivity. }
    rewrite <- C. apply loop_pos; [reflexivity|]. intros ps2 l2 s2 E. rewrite C in E. destruct (take p sub a _ s) as [s'| |]; cbn [obind] in E; [|discriminate E|discriminate E].
    destruct (take p sub b [o] s'); cbn in E; [|discriminate E|discriminate E]. injection E as <- <- _. auto.
  Qed.

  (** The command [cmd] of a program is read after options [pre]; [last] is what follows the arguments of the command. *)
  Definition command_meaning (pr : program) (pre : list item) (ns' ns : namespace) : Prop :=
    (forall b d, In b (p_actions (pr_main pr)) -> a_opts b <> [] -> a_default b = Some d -> dget ns (a_dest b) = Some (expected b d pre)) /\
    (forall k, ~ In k (map a_dest (p_actions (pr_main pr))) -> dget ns k = match dget ns' k with Some v => Some v | None => dget (p_defaults (pr_main pr)) k end).
  Section Command.
    Variables (pr : program) (a : action) (pre : list item) (cmd : string) (sp : parser) (subargs : list string).
    Hypothesis Hwf : wf_parser (pr_main pr) = true.
    Hypothesis Hk : a_kind a = Subs.
    Hypothesis Hn : a_nargs a = NParser.
    Hypothesis Hf : Forall (fits (pr_main pr)) pre.
    Hypothesis Hm : forallb (fun i => negb (is_many i)) pre = true.
    Hypothesis Hc : plain cmd.
    Hypothesis Hs : dget (pr_subs pr) cmd = Some sp.
    Hypothesis Hr : Forall (readable (pr_main pr)) subargs.
    Notation R := (parse_known sp (no_sub) subargs).
    Notation main := (pr_main pr).

    Lemma take_command s : take main (subs_of accepts pr) a (cmd :: subargs) s =
      let! (ns, ex) := R in Done (mkSt (fold_left (fun n kv => dset n (fst kv) (snd kv)) ns (s_ns s)) (a_dest a :: s_seen s) (s_extras s ++ ex)).
    Proof. unfold ArgModel.take. rewrite Hk. unfold subs_of. rewrite Hs. reflexivity. Qed.
    Lemma tags_command rest r : Forall plain rest -> r = map (fun x => (x, TArg)) rest ->
      exists m, tags main (cmd :: subargs ++ rest) = Done ((cmd, TArg) :: m ++ r) /\ map fst m = subargs.
    Proof.
      intros P ->. pose proof (tags_plain main rest [] P) as T. rewrite app_nil_r in T. cbn [tags obind] in T. rewrite app_nil_r in T.
      destruct (tags_readable main subargs rest _ Hr T) as [m [E1 E2]]. exists m. split; [|exact E2].
      pose proof (tags_plain main [cmd] (subargs ++ rest)) as C. cbn [app map] in C. rewrite C by (constructor; [exact Hc|constructor]).
      now rewrite E1.
    Qed.
    Lemma main_bad rest : Forall plain rest -> ~ Forall (good accepts main) pre -> parse_args accepts pr (flat_map words pre ++ cmd :: subargs ++ rest) = Exit Usage.
    Proof.
      intros P B. destruct (tags_command rest _ P eq_refl) as [m [T _]]. unfold parse_args.
      destruct (known_items main (subs_of accepts pr) pre _ _ Hwf Hf T (or_intror Hm)) as [f ->].
      now rewrite (acts_bad accepts main pre _ Hwf Hf B).
    Qed.

    Lemma expected_kept s b d ns' : (forall b, In b (p_actions main) -> dget ns' (a_dest b) = None) -> NoDup (dkeys ns') ->
      In b (p_actions main) -> dget (s_ns s) (a_dest b) = Some d ->
      dget (fold_left (fun n kv => dset n (fst kv) (snd kv)) ns' (s_ns s)) (a_dest b) = Some d.
    Proof. intros D N Hb E. rewrite dget_copy by exact N. now rewrite (D b Hb). Qed.

    (** Commands at the end *)
    Lemma command_line : positionals main = [a] -> Forall (good accepts main) pre ->
      (forall e, R = Exit e -> parse_args accepts pr (flat_map words pre ++ cmd :: subargs) = Exit e) /\
      (forall ns', R = Done (ns', []) -> NoDup (dkeys ns') -> (forall b, In b (p_actions main) -> dget ns' (a_dest b) = None) ->
        exists ns, parse_args accepts pr (flat_map words pre ++ cmd :: subargs) = Done ns /\ command_meaning pr pre ns' ns).
    Proof.
      intros P G. destruct (tags_command [] [] (Forall_nil _) eq_refl) as [m [T E]]. rewrite !app_nil_r in T. unfold parse_args.
      destruct (known_items main (subs_of accepts pr) pre _ _ Hwf Hf T (or_intror Hm)) as [f ->].
      destruct (acts_good accepts main pre (init_st main) Hwf Hf G) as [s [A1 [A2 [A3 [A4 [A5 A6]]]]]]. rewrite A1, P. cbn [obind plus].
      rewrite (loop_command _ _ _ a cmd m s Hn), E, take_command.
      destruct (initial_spec main Hwf) as [I1 [I2 I3]].
      split; [intros e ->; reflexivity|]. intros ns' -> N D. cbn [obind finish s_seen s_ns s_extras].
      rewrite (not_required main _ Hwf).
      - cbn [obind]. rewrite A2. cbn [init_st s_extras app map]. eexists. split; [reflexivity|]. split.
        + intros b d Hb Hbo Hd. apply expected_kept; auto. apply A4; auto. cbn. now rewrite (I1 b Hb).
        + intros k Hkk. rewrite dget_copy by exact N. destruct (dget ns' k); [reflexivity|]. rewrite A3; [now apply I2|].
          intros b Hb _ Q. apply Hkk. rewrite <- Q. now apply in_map.
      - rewrite P. intros b [<-|[]] _. now left.
    Qed.
    (** Commands followed by a file *)
    Lemma command_line_out b o : positionals main = [a; b] -> a_nargs b = N1 -> a_kind b = Store -> a_opts b = [] -> plain o -> allowed accepts b o -> Forall (good accepts main) pre ->
      (forall e, R = Exit e -> parse_args accepts pr (flat_map words pre ++ cmd :: subargs ++ [o]) = Exit e) /\
      (forall ns', R = Done (ns', []) -> NoDup (dkeys ns') -> (forall b, In b (p_actions main) -> dget ns' (a_dest b) = None) ->
        exists ns, parse_args accepts pr (flat_map words pre ++ cmd :: subargs ++ [o]) = Done ns /\ command_meaning pr pre ns' ns /\
          dget ns (a_dest b) = Some (VConv (a_conv b) o)).
    Proof.
      intros P Nb Kb Ob Po Ao G. destruct (tags_command [o] [(o, TArg)] (Forall_cons _ Po (Forall_nil _)) eq_refl) as [m [T E]]. unfold parse_args.
      destruct (known_items main (subs_of accepts pr) pre _ _ Hwf Hf T (or_intror Hm)) as [f ->].
      destruct (acts_good accepts main pre (init_st main) Hwf Hf G) as [s [A1 [A2 [A3 [A4 [A5 A6]]]]]]. rewrite A1, P. cbn [obind plus].
      rewrite (loop_command_out _ _ _ a b cmd m o s Hn Nb), E, take_command.
      destruct (initial_spec main Hwf) as [I1 [I2 I3]].
      split; [intros e ->; reflexivity|]. intros ns' -> N D. cbn [obind s_seen s_ns s_extras].
      assert (forall s, take main (subs_of accepts pr) b [o] s = Done (mkSt (dset (s_ns s) (a_dest b) (VConv (a_conv b) o)) (a_dest b :: s_seen s) (s_extras s))) as ->.
      { intros s0. unfold ArgModel.take, get_values. rewrite Kb, Ob, Nb. unfold plain in Po. cbn [remove_first].
        destruct (String.eqb_spec "--" o) as [<-|]; [discriminate Po|]. rewrite convert_spec. now rewrite (proj2 (allowedb_spec accepts b o) Ao). }
      cbn [obind finish s_seen s_ns s_extras].
      assert (In b (p_actions main)) as Hb0. { assert (In b (positionals main)) as K by (rewrite P; right; now left). unfold positionals in K. now apply filter_In in K. }
      rewrite (not_required main _ Hwf).
      - cbn [obind]. rewrite A2. cbn [init_st s_extras app map]. eexists. split; [reflexivity|]. split; [split|].
        + intros c d Hb Hbo Hd. rewrite dget_dset. destruct (eqb_spec (a_dest c) (a_dest b)) as [Q|Q].
          { apply (wf_dest _ _ _ Hwf Hb Hb0) in Q. subst c. now elim Hbo. }
          apply expected_kept; auto. apply A4; auto. cbn. now rewrite (I1 c Hb).
        + intros k Hkk. rewrite dget_dset. destruct (eqb_spec k (a_dest b)) as [->|Q]; [elim Hkk; now apply in_map|].
          rewrite dget_copy by exact N. destruct (dget ns' k); [reflexivity|]. rewrite A3; [now apply I2|].
          intros c Hb _ Q'. apply Hkk. rewrite <- Q'. now apply in_map.
        + apply dget_dset_same.
      - rewrite P. intros c [<-|[<-|[]]] _; [right; now left|now left].
    Qed.
  End Command.

  (** * Two positionals with options before, between and after them *)
  Lemma filter_rev {A} (f : A -> bool) l : filter f (rev l) = rev (filter f l).
  Proof. induction l as [|x l IH]; cbn; [reflexivity|]. rewrite filter_app, IH. cbn. destruct (f x); cbn; [reflexivity|now rewrite app_nil_r]. Qed.
  Lemma lengths_one t ts : is_dash t = false -> lengths N1 (TArg :: t :: ts) = [1%nat].
  Proof.
    intros D. unfold lengths. rewrite filter_rev. set (f := fun k => pos_ok N1 (firstn k (TArg :: t :: ts))).
    assert (forall j, (2 <= j)%nat -> f j = false) as F.
    { intros j J. destruct j as [|[|j]]; [lia|lia|]. unfold f. cbn. now rewrite D. }
    assert (f 0%nat = false) as F0 by reflexivity. assert (f 1%nat = true) as F1 by reflexivity. clearbody f.
    assert (filter f (seq 2 (S (List.length ts))) = []) as E.
    { assert (forall j, In j (seq 2 (S (List.length ts))) -> f j = false) as Q by (intros j J; apply in_seq in J; apply F; lia).
      revert Q. generalize (seq 2 (S (List.length ts))). induction l as [|j l IH]; intros Q; [reflexivity|]. cbn [filter].
      rewrite (Q j (or_introl eq_refl)). apply IH. intros k K. apply Q. now right. }
    change (seq 0 (S (List.length (TArg :: t :: ts)))) with (0%nat :: 1%nat :: seq 2 (S (List.length ts))). cbn [filter]. rewrite F0, F1, E. reflexivity.
  Qed.
  Lemma lengths_opt n t ts : is_opt t = true -> n <> N0 -> lengths n (t :: ts) = [].
  Proof.
    intros D Hn. unfold lengths. rewrite filter_rev.
    assert (forall l, filter (fun k => pos_ok n (firstn k (t :: ts))) l = []) as ->; [|reflexivity].
    induction l as [|j l IH]; [reflexivity|]. cbn [filter].
    assert (pos_ok n (firstn j (t :: ts)) = false) as ->; [|exact IH].
    destruct t; try discriminate D. destruct j, n; try reflexivity; now elim Hn.
  Qed.
  Definition opt_first (l : list (string * tag)) : bool := match l with [] => true | (_, t) :: _ => is_opt t end.
  Lemma opt_first_no_arg l : opt_first l = true -> no_arg l = true.
  Proof. destruct l as [|[x []] l]; auto. Qed.
  Lemma items_opt_first p items : opt_first (flat_map (item_tags p) items) = true.
  Proof. destruct items as [|i items]; [reflexivity|]. now destruct i. Qed.
  Lemma match_some n rest : opt_first rest = true -> n <> [] ->
    match_all [NPlus] (map snd (map (fun x : string => (x, TArg)) n ++ rest)) = Some [List.length n].
  Proof.
    intros O N. destruct n as [|x n]; [now elim N|].
    assert (map snd (map (fun x : string => (x, TArg)) (x :: n)) = map (fun _ => TArg) (x :: n)) as Q by (rewrite map_map; reflexivity).
    rewrite map_app, Q.
    assert (List.length (map (fun _ : string => TArg) (x :: n)) = List.length (x :: n)) as L by apply map_length.
    apply match_last.
    - rewrite <- L, firstn_app, firstn_all, PeanoNat.Nat.sub_diag. cbn [firstn app]. rewrite app_nil_r. cbn. apply forallb_forall. intros y Hy. apply in_map_iff in Hy. destruct Hy as [_ [<- _]]. reflexivity.
    - rewrite app_length, L. lia.
    - intros j J. destruct rest as [|[y t] rest]; [rewrite app_length, L in J; cbn [map length] in J; lia|]. cbn [opt_first map snd] in *.
      rewrite firstn_app, L. rewrite (firstn_all2 (n := j)) by (rewrite L; lia).
      destruct (j - List.length (x :: n))%nat eqn:E; [lia|]. cbn [firstn map app].
      cbn. rewrite forallb_app. cbn. rewrite O. cbn. now rewrite Bool.andb_false_r.
  Qed.
  Lemma loop_step f p sub ps x l s :
    (existsb (fun y => is_opt (snd y)) l = false -> forall ps2 l2 s2, consume_positionals accepts p sub ps ((x, TArg) :: l) s = Done (ps2, l2, s2) -> ps2 = [] /\ l2 = []) ->
    (forall ps2 l2 s2, consume_positionals accepts p sub ps ((x, TArg) :: l) s = Done (ps2, l2, s2) -> (List.length l2 <= List.length l)%nat) ->
    parse_loop (S f) p sub ps ((x, TArg) :: l) s =
    let! (ps2, l2, s2) := consume_positionals accepts p sub ps ((x, TArg) :: l) s in parse_loop f p sub ps2 l2 s2.
  Proof.
    intros E L. cbn [ArgModel.parse_loop existsb snd is_opt orb]. destruct (existsb _ l) eqn:Q; cbn [negb].
    - destruct (consume_positionals _ _ _ _ _ _) as [[[ps2 l2] s2]| |]; cbn [obind]; try reflexivity.
      specialize (L _ _ _ eq_refl). cbn [length]. destruct (PeanoNat.Nat.ltb_spec (List.length l2) (S (List.length l))); [reflexivity|lia].
    - destruct (consume_positionals _ _ _ _ _ _) as [[[ps2 l2] s2]| |]; cbn [obind]; try reflexivity.
      destruct (E eq_refl _ _ _ eq_refl) as [-> ->]. rewrite loop_nil. reflexivity.
  Qed.
  Lemma no_opts_args l rest : existsb (fun y : string * tag => is_opt (snd y)) (map (fun x => (x, TArg)) l ++ rest) = false -> opt_first rest = true -> rest = [].
  Proof.
    rewrite existsb_app. intros E O. destruct rest as [|[x t] rest]; [reflexivity|]. cbn in *. rewrite O in E. cbn in E. now rewrite Bool.orb_true_r in E.
  Qed.
  Lemma consume_many p sub b n rest s : a_nargs b = NPlus -> opt_first rest = true -> n <> [] ->
    consume_positionals accepts p sub [b] (map (fun x => (x, TArg)) n ++ rest) s = let! s' := take p sub b n s in Done ([], rest, s').
  Proof.
    intros Nb O N. unfold consume_positionals. cbn [length map match_partial firstn]. rewrite Nb, (match_some n rest O N). cbn [take_pos].
    assert (List.length (map (fun x : string => (x, TArg)) n) = List.length n) as L by apply map_length.
    rewrite <- L, firstn_app, firstn_all, PeanoNat.Nat.sub_diag, skipn_app, skipn_all, PeanoNat.Nat.sub_diag. cbn [firstn skipn app].
    rewrite app_nil_r, map_map. cbn [fst]. rewrite map_id. reflexivity.
  Qed.
  Lemma loop_many f p sub b n rest s : a_nargs b = NPlus -> opt_first rest = true -> n <> [] ->
    parse_loop (S f) p sub [b] (map (fun x => (x, TArg)) n ++ rest) s = let! s' := take p sub b n s in parse_loop f p sub [] rest s'.
  Proof.
    intros Nb O N. pose proof (consume_many p sub b n rest s Nb O N) as C. destruct n as [|x n]; [now elim N|]. cbn [map app] in *. rewrite loop_step.
    - rewrite C. now destruct (take p sub b (x :: n) s).
    - intros E ps2 l2 s2. rewrite C. destruct (take p sub b (x :: n) s); cbn [obind]; intros Q; [|discriminate Q|discriminate Q].
      injection Q as <- <- _. split; [reflexivity|]. exact (no_opts_args _ _ E O).
    - intros ps2 l2 s2. rewrite C. destruct (take p sub b (x :: n) s); cbn [obind]; intros Q; [|discriminate Q|discriminate Q].
      injection Q as <- <- _. rewrite app_length. lia.
  Qed.
  Lemma loop_two f p sub a b x mid n post s : wf_parser p = true -> a_nargs a = N1 -> a_nargs b = NPlus -> n <> [] ->
    Forall (fits p) mid -> Forall (fits p) post -> forallb (fun i => negb (is_many i)) mid = true ->
    parse_loop (2 + List.length mid + List.length post + f) p sub [a; b]
      ((x, TArg) :: flat_map (item_tags p) mid ++ map (fun x => (x, TArg)) n ++ flat_map (item_tags p) post) s =
    let! s1 := take p sub a [x] s in let! s2 := acts p mid s1 in let! s3 := take p sub b n s2 in let! s4 := acts p post s3 in Done ([], [], s4).
  Proof.
    intros H Na Nb N Fm Fp Mm.
    assert (forall f s, parse_loop (List.length post + f) p sub [] (flat_map (item_tags p) post) s = let! s4 := acts p post s in Done ([], [], s4)) as P.
    { intros f0 s0. pose proof (loop_items accepts f0 p sub [] post [] s0 H Fp (or_introl eq_refl)) as L. rewrite app_nil_r in L. rewrite L.
      destruct (acts p post s0); cbn [obind]; [|reflexivity|reflexivity]. now rewrite loop_nil. }
    destruct mid as [|i mid].
    - cbn [flat_map app length plus]. cbn [acts obind].
      set (rest := flat_map (item_tags p) post). assert (opt_first rest = true) as O by apply items_opt_first.
      assert (consume_positionals accepts p sub [a; b] ((x, TArg) :: map (fun x => (x, TArg)) n ++ rest) s =
        let! s1 := take p sub a [x] s in let! s3 := take p sub b n s1 in Done ([], rest, s3)) as C.
      { unfold consume_positionals. cbn [length map match_partial firstn snd]. rewrite Na, Nb.
        assert (match_all [N1; NPlus] (TArg :: map snd (map (fun x : string => (x, TArg)) n ++ rest)) = Some [1%nat; List.length n]) as ->.
        { destruct n as [|y n]; [now elim N|]. pose proof (match_some (y :: n) rest O N) as M. remember [NPlus] as k.
          cbn [map app snd] in *. cbn [match_all]. rewrite lengths_one by reflexivity. cbn [skipn]. subst k. rewrite M. reflexivity. }
        cbn [take_pos firstn skipn map fst]. destruct (take p sub a [x] s) as [s1| |]; cbn [obind]; [|reflexivity|reflexivity].
        assert (List.length (map (fun x : string => (x, TArg)) n) = List.length n) as L by apply map_length.
        rewrite <- L, firstn_app, firstn_all, PeanoNat.Nat.sub_diag, skipn_app, skipn_all, PeanoNat.Nat.sub_diag. cbn [firstn skipn app].
        rewrite app_nil_r, map_map. cbn [fst]. rewrite map_id. now destruct (take p sub b n s1). }
      rewrite loop_step.
      + rewrite C. destruct (take p sub a [x] s) as [s1| |]; cbn [obind]; [|reflexivity|reflexivity].
        destruct (take p sub b n s1) as [s2| |]; cbn [obind]; [|reflexivity|reflexivity].
        unfold rest. replace (S (List.length post + f)) with (List.length post + S f)%nat by lia. apply P.
      + intros E ps2 l2 s2. rewrite C. destruct (take p sub a [x] s) as [s1| |]; cbn [obind]; [|intros Q; discriminate Q|intros Q; discriminate Q].
        destruct (take p sub b n s1) as [s3| |]; cbn [obind]; intros Q; [|discriminate Q|discriminate Q]. injection Q as <- <- _.
        split; [reflexivity|]. exact (no_opts_args _ _ E O).
      + intros ps2 l2 s2. rewrite C. destruct (take p sub a [x] s) as [s1| |]; cbn [obind]; [|intros Q; discriminate Q|intros Q; discriminate Q].
        destruct (take p sub b n s1) as [s3| |]; cbn [obind]; intros Q; [|discriminate Q|discriminate Q]. injection Q as <- <- _.
        rewrite app_length. lia.
    - set (rest := flat_map (item_tags p) (i :: mid) ++ map (fun x : string => (x, TArg)) n ++ flat_map (item_tags p) post).
      assert (consume_positionals accepts p sub [a; b] ((x, TArg) :: rest) s = let! s1 := take p sub a [x] s in Done ([b], rest, s1)) as C.
      { unfold consume_positionals. cbn [length map match_partial firstn snd]. rewrite Na, Nb.
        assert (exists t r, map snd rest = t :: r /\ is_opt t = true) as [t [r [E T]]] by (unfold rest; destruct i; cbn; eauto).
        rewrite E. cbn [match_all]. rewrite lengths_one by (now destruct t). cbn [skipn]. rewrite lengths_opt by (auto; discriminate).
        cbn [take_pos firstn skipn map fst]. now destruct (take p sub a [x] s). }
      change (2 + List.length (i :: mid) + List.length post + f)%nat with (S (1 + List.length (i :: mid) + List.length post + f)).
      rewrite loop_step.
      + rewrite C. destruct (take p sub a [x] s) as [s1| |]; cbn [obind]; [|reflexivity|reflexivity].
        unfold rest. replace (1 + List.length (i :: mid) + List.length post + f)%nat with (List.length (i :: mid) + (S (List.length post + f)))%nat by lia.
        rewrite (loop_items accepts _ p sub [b] (i :: mid) _ s1 H Fm (or_intror Mm)).
        destruct (acts p (i :: mid) s1) as [s2| |]; cbn [obind]; [|reflexivity|reflexivity].
        rewrite loop_many by (auto using items_opt_first). destruct (take p sub b n s2) as [s3| |]; cbn [obind]; [|reflexivity|reflexivity]. apply P.
      + intros E. exfalso. unfold rest in E. destruct i; cbn in E; discriminate E.
      + intros ps2 l2 s2. rewrite C. destruct (take p sub a [x] s); cbn [obind]; intros Q; [|discriminate Q|discriminate Q]. injection Q as <- <- _. lia.
  Qed.
  Lemma two_positionals p sub a b pre x mid n post : wf_parser p = true -> positionals p = [a; b] -> a_nargs a = N1 -> a_nargs b = NPlus -> n <> [] ->
    Forall (fits p) pre -> Forall (fits p) mid -> Forall (fits p) post -> forallb (fun i => negb (is_many i)) (pre ++ mid) = true ->
    plain x -> Forall plain n ->
    parse_known p sub (flat_map words pre ++ x :: flat_map words mid ++ n ++ flat_map words post) =
    let! s0 := acts p pre (init_st p) in let! s1 := take p sub a [x] s0 in let! s2 := acts p mid s1 in let! s3 := take p sub b n s2 in
    let! s4 := acts p post s3 in finish p ([], [], s4).
  Proof.
    intros H P Na Nb N Fr Fm Fp M Px Pn. rewrite forallb_app in M. apply andb_prop in M. destruct M as [Mr Mm].
    assert (tags p (x :: flat_map words mid ++ n ++ flat_map words post) =
      Done ((x, TArg) :: flat_map (item_tags p) mid ++ map (fun x => (x, TArg)) n ++ flat_map (item_tags p) post)) as T.
    { pose proof (tags_plain p [x] (flat_map words mid ++ n ++ flat_map words post)) as T1. cbn [app map] in T1. rewrite T1 by (constructor; [exact Px|constructor]).
      rewrite (tags_items _ _ _ H Fm), (tags_plain _ _ _ Pn). pose proof (tags_items p post [] H Fp) as T2. rewrite !app_nil_r in T2. rewrite T2. cbn [tags obind].
      rewrite app_nil_r. reflexivity. }
    destruct (known_items p sub pre _ _ H Fr T (or_intror Mr)) as [f ->]. rewrite P.
    destruct (acts p pre (init_st p)) as [s0| |]; cbn [obind]; [|reflexivity|reflexivity].
    match goal with |- obind (parse_loop ?g _ _ _ ?l _) _ = _ => assert (exists h, g = (2 + List.length mid + List.length post + h)%nat) as [h ->] end.
    { cbn [length]. rewrite !app_length, map_length. pose proof (item_tags_len p mid). pose proof (item_tags_len p post).
      destruct n as [|y n]; [now elim N|]. cbn [length].
      exists (1 + f + (List.length (flat_map (item_tags p) mid) - List.length mid) + List.length n + (List.length (flat_map (item_tags p) post) - List.length post))%nat. lia. }
    rewrite loop_two by auto.
    destruct (take p sub a [x] s0) as [s1| |]; cbn [obind]; [|reflexivity|reflexivity].
    destruct (acts p mid s1) as [s2| |]; cbn [obind]; [|reflexivity|reflexivity].
    destruct (take p sub b n s2) as [s3| |]; cbn [obind]; [|reflexivity|reflexivity].
    now destruct (acts p post s3).
  Qed.
  Lemma expected_app a d x y : expected a (expected a d x) y = expected a d (x ++ y).
  Proof.
    unfold expected, mine. rewrite filter_app, map_app. set (u := map (value_of a) (filter _ x)). set (v := map (value_of a) (filter _ y)).
    assert (last v (last u d) = last (u ++ v) d) as L.
    { clearbody u v. revert d. induction u as [|z u IH]; intros d; [reflexivity|].
      assert (forall w (e : value), last (z :: w) e = last w z) as Q.
      { clear. intros w. revert z. induction w as [|q w IH]; intros z e; [reflexivity|]. change (last (z :: q :: w) e) with (last (q :: w) e). rewrite !IH. reflexivity. }
      cbn [app]. rewrite !Q. apply IH. }
    destruct (a_kind a); try exact L.
    destruct u as [|z u]; [reflexivity|]. destruct v as [|w v]; [now rewrite app_nil_r|]. cbn [app]. now rewrite <- app_assoc.
  Qed.
End Parse.
