(** Proofs about the command lines of the programs. *)
From Coq Require Import Ascii.
From Verif Require Import Base CurveModel BuildModel ArgModel ArgSpec ArgProofs ArgAccept ArgSound.
Open Scope string_scope.
Open Scope list_scope.
Unset Implicit Arguments.

Definition programs : list program :=
  [analyze_program; render_program; report_program; import_program; optimize_program; write_program; extract_program].
Lemma programs_wf : forallb wf_program programs = true.
Proof. vm_compute. reflexivity. Qed.
Lemma program_wf pr : In pr programs -> wf_program pr = true.
Proof. exact (proj1 (forallb_forall _ _) programs_wf pr). Qed.
Lemma main_wf pr : In pr programs -> wf_parser (pr_main pr) = true.
Proof. intros H. exact (proj1 (prog_parts pr (program_wf pr H))). Qed.
Lemma dget_first {V} (l : list (string * V)) k v : NoDup (map fst l) -> In (k, v) l -> dget l k = Some v.
Proof. intros N H. apply (dget_In_iff l k v N). exact H. Qed.
Lemma subs_nodup pr : In pr programs -> NoDup (map fst (pr_subs pr)).
Proof.
  intros H. apply program_wf in H. unfold wf_program in H. apply andb_prop in H. destruct H as [H _]. apply andb_prop in H. destruct H as [H _].
  apply andb_prop in H. destruct H as [H _]. apply andb_prop in H. destruct H as [_ H]. now apply nodupb_NoDup.
Qed.

(** Options of commands do not confuse the parser of the program. *)
Ltac quiet_one :=
  match goal with
  | |- Forall _ [] => constructor
  | |- Forall _ (_ :: _) => constructor; [|quiet_one]
  end.
Lemma joined_readable p o s : has_eq o = false -> (exists t, parse_optional p (o ++ "=" ++ s)%string = Done t) -> readable p (o ++ "=" ++ s)%string.
Proof. intros H E. split; [now apply joined_not|exact E]. Qed.
Lemma quiet_opts p sp :
  (forall a o s, In a (p_actions sp) -> In o (a_opts a) -> has_eq o = false /\ readable p o /\ exists t, parse_optional p (o ++ "=" ++ s)%string = Done t) -> quiet p sp.
Proof.
  intros Q i [a [Ha [Ho Hi]]]. destruct i as [o s|o s|o|o s l]; cbn [item_opt words] in *.
  - destruct (Q a o s Ha Ho) as [_ [R _]]. constructor; [exact R|]. constructor; [|constructor]. apply plain_readable. apply Hi.
  - destruct (Q a o s Ha Ho) as [E [_ R]]. constructor; [|constructor]. now apply joined_readable.
  - destruct (Q a o "" Ha Ho) as [_ [R _]]. constructor; [exact R|constructor].
  - destruct (Q a o "" Ha Ho) as [_ [R _]]. constructor; [exact R|]. destruct Hi as [_ [_ Hi]]. eapply Forall_impl; [|exact Hi]. intros x. apply plain_readable.
Qed.
Ltac quiet_prog :=
  intros name sp H; cbn [pr_subs analyze_program render_program In command] in H;
  repeat (destruct H as [H|H]; [injection H as _ <-; apply quiet_opts; intros a o s Ha Ho; cbn [p_actions In] in Ha;
    repeat (destruct Ha as [<-|Ha]; [cbn [a_opts help_action opt flag pos In] in Ho;
      repeat (destruct Ho as [<-|Ho]; [split; [reflexivity|]; split; [split; [reflexivity|vm_compute; eauto]|cbn; try match goal with |- context [if ?c then Done _ else Done _] => destruct c end; eauto]|]); destruct Ho|]); destruct Ha|]); destruct H.
Lemma quiet_render name sp : In (name, sp) (pr_subs render_program) -> quiet (pr_main render_program) sp.
Proof. revert name sp. quiet_prog. Qed.
Lemma quiet_analyze name sp : In (name, sp) (pr_subs analyze_program) -> quiet (pr_main analyze_program) sp.
Proof. revert name sp. quiet_prog. Qed.

Lemma no_many p items : forallb (fun a => match a_opts a, a_nargs a with _ :: _, NPlus => false | _, _ => true end) (p_actions p) = true ->
  Forall (fits p) items -> forallb (fun i => negb (is_many i)) items = true.
Proof.
  intros H F. apply forallb_forall. intros i Hi. rewrite Forall_forall in F. destruct (F i Hi) as [a [Ha [Ho K]]].
  pose proof (proj1 (forallb_forall _ _) H a Ha) as N. cbv beta in N. destruct i; try reflexivity. destruct K as [K _]. rewrite K in N. destruct (a_opts a); [destruct Ho|discriminate N].
Qed.
Lemma plain_names pr : In pr programs -> forallb (fun s => negb (starts_dash (fst s))) (pr_subs pr) = true.
Proof.
  intros H. assert (forallb (fun pr => forallb (fun s => negb (starts_dash (fst s))) (pr_subs pr)) programs = true) as Q by (vm_compute; reflexivity).
  exact (proj1 (forallb_forall _ _) Q pr H).
Qed.
Lemma plain_name pr cmd sp : In pr programs -> In (cmd, sp) (pr_subs pr) -> plain cmd.
Proof.
  intros H S. pose proof (proj1 (forallb_forall _ _) (plain_names pr H) _ S) as Q. cbn in Q. unfold plain. now destruct (starts_dash cmd).
Qed.
Lemma sub_wf pr cmd sp : In pr programs -> In (cmd, sp) (pr_subs pr) -> dget (pr_subs pr) cmd = Some sp /\ wf_parser sp = true.
Proof.
  intros H S. pose proof (dget_first _ _ _ (subs_nodup pr H) S) as D. split; [exact D|]. exact (proj1 (proj2 (proj2 (prog_parts pr (program_wf pr H))) cmd sp D)).
Qed.
Section Lines.
  Variable accepts : conv -> string -> bool.

  (** Programs that know options only *)
  Lemma options_line pr items : In pr programs -> positionals (pr_main pr) = [] -> Forall (fits (pr_main pr)) items ->
    (Forall (good accepts (pr_main pr)) items -> exists ns, parse_args accepts pr (flat_map words items) = Done ns /\ option_values (pr_main pr) items ns) /\
    (~ Forall (good accepts (pr_main pr)) items -> parse_args accepts pr (flat_map words items) = Exit Usage).
  Proof.
    intros H P F. destruct (only_items accepts (pr_main pr) (subs_of accepts pr) items (main_wf pr H) P F) as [G B]. unfold parse_args. split.
    - intros Q. destruct (G Q) as [ns [-> [V _]]]. exists ns. split; [reflexivity|]. intros a d Ha _. now apply V.
    - intros Q. now rewrite (B Q).
  Qed.

  (** The namespace of a command without positionals *)
  Lemma command_items pr cmd sp items : In pr programs -> In (cmd, sp) (pr_subs pr) -> positionals sp = [] -> Forall (fits sp) items ->
    (Forall (good accepts sp) items -> exists ns, parse_known accepts sp no_sub (flat_map words items) = Done (ns, []) /\ NoDup (dkeys ns) /\
      (forall b, In b (p_actions (pr_main pr)) -> dget ns (a_dest b) = None) /\ option_values sp items ns /\
      (forall k, ~ In k (map a_dest (p_actions sp)) -> dget ns k = dget (p_defaults sp) k)) /\
    (~ Forall (good accepts sp) items -> parse_known accepts sp no_sub (flat_map words items) = Exit Usage).
  Proof.
    intros H S P F. destruct (sub_wf pr cmd sp H S) as [D W]. destruct (only_items accepts sp no_sub items W P F) as [G B]. split; [|exact B].
    intros Q. destruct (G Q) as [ns [E [V1 [V2 [V3 V4]]]]]. exists ns. split; [exact E|]. split; [exact V4|].
    split; [exact (proj1 (proj2 (sub_sound accepts pr (program_wf pr H) _ _ _ _ _ D E)))|]. split; [intros a d Ha _; now apply V1|exact V2].
  Qed.
  Definition command_values (pr : program) (pre : list item) (sp : parser) (items : list item) (ns : namespace) : Prop :=
    option_values (pr_main pr) pre ns /\ option_values sp items ns /\ dget ns "func" = dget (p_defaults sp) "func".
  Lemma values_ok pr pre cmd sp items ns' ns : In pr programs -> In (cmd, sp) (pr_subs pr) -> p_defaults (pr_main pr) = [] ->
    mem "func" (map a_dest (p_actions (pr_main pr) ++ p_actions sp)) = false ->
    option_values sp items ns' -> (forall k, ~ In k (map a_dest (p_actions sp)) -> dget ns' k = dget (p_defaults sp) k) ->
    command_meaning pr pre ns' ns -> command_values pr pre sp items ns.
  Proof.
    intros H S D M V1 V2 [C1 C2]. destruct (sub_wf pr cmd sp H S) as [Dg W]. destruct (proj2 (proj2 (prog_parts pr (program_wf pr H))) cmd sp Dg) as [_ [Q _]].
    apply mem_nIn in M. rewrite map_app, in_app_iff in M. split; [exact C1|]. split.
    - intros a d Ha Ho Hd. rewrite C2; [now rewrite (V1 a d Ha Ho Hd)|]. apply Q; [exact Ha|]. intros K.
      pose proof (wf_act _ _ W Ha) as Z. unfold wf_action in Z. apply andb_prop in Z. destruct Z as [_ Z]. rewrite K, Hd in Z. destruct (a_opts a), (a_nargs a); discriminate Z.
    - rewrite C2 by tauto. rewrite V2 by tauto. rewrite D. now destruct (dget (p_defaults sp) "func").
  Qed.
  Lemma no_func pr cmd sp : In pr programs -> In (cmd, sp) (pr_subs pr) -> mem "func" (map a_dest (p_actions (pr_main pr) ++ p_actions sp)) = false.
  Proof.
    intros H S. assert (forallb (fun pr => forallb (fun s => negb (mem "func" (map a_dest (p_actions (pr_main pr) ++ p_actions (snd s))))) (pr_subs pr)) programs = true) as Q by (vm_compute; reflexivity).
    pose proof (proj1 (forallb_forall _ _) Q pr H) as Q'. pose proof (proj1 (forallb_forall _ _) Q' _ S) as Q2. cbn [snd] in Q2. now apply Bool.negb_true_iff in Q2.
  Qed.

  Lemma analyze_in : In analyze_program programs. Proof. left; reflexivity. Qed.
  Lemma render_in : In render_program programs. Proof. right; left; reflexivity. Qed.
  Lemma write_in : In write_program programs. Proof. right; right; right; right; right; left; reflexivity. Qed.
  Lemma good_dec p i : {good accepts p i} + {~ good accepts p i}.
  Proof.
    assert (forall a s, {allowed accepts a s} + {~ allowed accepts a s}) as D.
    { intros a s. unfold allowed. assert ({a_conv a = CStr} + {a_conv a <> CStr}) as [K|K] by decide equality.
      - destruct (a_choices a) as [l|]; [destruct (in_dec string_dec s l); [left; tauto|right; tauto]|left; tauto].
      - destruct (accepts (a_conv a) s); [|right; intros [[Q|Q] _]; [tauto|discriminate Q]].
        destruct (a_choices a) as [l|]; [destruct (in_dec string_dec s l); [left; tauto|right; tauto]|left; tauto]. }
    destruct (Forall_dec (fun a => In (item_opt i) (a_opts a) -> Forall (allowed accepts a) (given_strings i))) with (l := p_actions p) as [K|K].
    - intros a. destruct (in_dec string_dec (item_opt i) (a_opts a)) as [Q|Q]; [|left; tauto].
      destruct (Forall_dec _ (D a) (given_strings i)); [left; tauto|right; tauto].
    - left. intros a Ha. rewrite Forall_forall in K. now apply K.
    - right. intros G. apply K. apply Forall_forall. intros a Ha. now apply G.
  Qed.
  Definition all_good pr pre sp items := Forall (good accepts (pr_main pr)) pre /\ Forall (good accepts sp) items.
  Lemma analyze_line pre cmd sp items : Forall (fits (pr_main analyze_program)) pre -> In (cmd, sp) (pr_subs analyze_program) -> positionals sp = [] -> Forall (fits sp) items ->
    let r := parse_args accepts analyze_program (flat_map words pre ++ cmd :: flat_map words items) in
    (all_good analyze_program pre sp items -> exists ns, r = Done ns /\ command_values analyze_program pre sp items ns) /\
    (~ all_good analyze_program pre sp items -> r = Exit Usage).
  Proof.
    intros F S P Fi. cbv zeta. pose proof analyze_in as H. destruct (sub_wf _ _ _ H S) as [D W].
    pose proof (no_many (pr_main analyze_program) pre eq_refl F) as M.
    pose proof (quiet_items _ _ _ (quiet_analyze _ _ S) Fi) as R.
    pose proof (plain_name _ _ _ H S) as Pn.
    destruct (command_items _ _ _ _ H S P Fi) as [CG CB].
    destruct (Forall_dec _ (good_dec (pr_main analyze_program)) pre) as [G|G].
    - destruct (command_line accepts analyze_program sub_action pre cmd sp (flat_map words items) (main_wf _ H) eq_refl eq_refl F M Pn D R eq_refl G) as [LE LD].
      destruct (Forall_dec _ (good_dec sp) items) as [Gi|Gi].
      + split; [intros _|unfold all_good; tauto]. destruct (CG Gi) as [ns' [E [N [B [V1 V2]]]]]. destruct (LD ns' E N B) as [ns [En C]]. exists ns. split; [exact En|].
        exact (values_ok _ _ _ _ _ _ _ H S eq_refl (no_func _ _ _ H S) V1 V2 C).
      + split; [unfold all_good; tauto|intros _]. exact (LE Usage (CB Gi)).
    - split; [unfold all_good; tauto|intros _]. pose proof (main_bad accepts analyze_program pre cmd (flat_map words items) (main_wf _ H) F M Pn R [] ltac:(constructor) G) as Q. now rewrite app_nil_r in Q.
  Qed.
  Lemma render_line pre cmd sp items o : Forall (fits (pr_main render_program)) pre -> In (cmd, sp) (pr_subs render_program) -> Forall (fits sp) items -> plain o ->
    let r := parse_args accepts render_program (flat_map words pre ++ cmd :: flat_map words items ++ [o]) in
    (all_good render_program pre sp items -> exists ns, r = Done ns /\ command_values render_program pre sp items ns /\ dget ns "output" = Some (strv o)) /\
    (~ all_good render_program pre sp items -> r = Exit Usage).
  Proof.
    intros F S Fi Po. cbv zeta. pose proof render_in as H. destruct (sub_wf _ _ _ H S) as [D W].
    pose proof (no_many (pr_main render_program) pre eq_refl F) as M.
    pose proof (quiet_items _ _ _ (quiet_render _ _ S) Fi) as R.
    pose proof (plain_name _ _ _ H S) as Pn.
    assert (positionals sp = []) as P.
    { assert (forallb (fun s => match positionals (snd s) with [] => true | _ => false end) (pr_subs render_program) = true) as Q by (vm_compute; reflexivity).
      pose proof (proj1 (forallb_forall _ _) Q _ S) as Q'. cbn [snd] in Q'. now destruct (positionals sp). }
    destruct (command_items _ _ _ _ H S P Fi) as [CG CB].
    assert (allowed accepts (pos "output" "Output file") o) as A by (split; [left; reflexivity|exact I]).
    destruct (Forall_dec _ (good_dec (pr_main render_program)) pre) as [G|G].
    - destruct (command_line_out accepts render_program sub_action pre cmd sp (flat_map words items) (main_wf _ H) eq_refl eq_refl F M Pn D R (pos "output" "Output file") o eq_refl eq_refl eq_refl eq_refl Po A G) as [LE LD].
      destruct (Forall_dec _ (good_dec sp) items) as [Gi|Gi].
      + split; [intros _|unfold all_good; tauto]. destruct (CG Gi) as [ns' [E [N [B [V1 V2]]]]]. destruct (LD ns' E N B) as [ns [En [C O]]]. exists ns. split; [exact En|]. split; [|exact O].
        exact (values_ok _ _ _ _ _ _ _ H S eq_refl (no_func _ _ _ H S) V1 V2 C).
      + split; [unfold all_good; tauto|intros _]. exact (LE Usage (CB Gi)).
    - split; [unfold all_good; tauto|intros _]. exact (main_bad accepts render_program pre cmd (flat_map words items) (main_wf _ H) F M Pn R [o] ltac:(constructor; [exact Po|constructor]) G).
  Qed.
  Lemma take_plain p sub a x s : a_nargs a = N1 -> a_kind a = Store -> plain x ->
    take accepts p sub a [x] s = if allowedb accepts a x then Done (mkSt (dset (s_ns s) (a_dest a) (VConv (a_conv a) x)) (a_dest a :: s_seen s) (s_extras s)) else Exit Usage.
  Proof.
    intros N K P. unfold ArgModel.take, get_values. rewrite K, N. unfold plain in P.
    assert (match a_opts a with [] => remove_first "--" [x] | _ :: _ => [x] end = [x]) as ->.
    { destruct (a_opts a); [|reflexivity]. cbn [remove_first]. destruct (String.eqb_spec "--" x) as [<-|]; [discriminate P|reflexivity]. }
    rewrite convert_spec. now destruct (allowedb accepts a x).
  Qed.
  Lemma take_plains p sub a n s : a_nargs a = NPlus -> a_kind a = Store -> Forall plain n ->
    take accepts p sub a n s = if forallb (allowedb accepts a) n then Done (mkSt (dset (s_ns s) (a_dest a) (VList (map (VConv (a_conv a)) n))) (a_dest a :: s_seen s) (s_extras s)) else Exit Usage.
  Proof.
    intros N K P. unfold ArgModel.take, get_values. rewrite K, N.
    assert (match a_opts a with [] => remove_first "--" n | _ :: _ => n end = n) as ->.
    { destruct (a_opts a); [|reflexivity]. induction n as [|x n IH]; [reflexivity|]. inversion P as [|? ? Px Pn]; subst. cbn [remove_first].
      destruct (String.eqb_spec "--" x) as [<-|]; [discriminate Px|]. now rewrite IH. }
    rewrite convert_all. now destruct (forallb (allowedb accepts a) n).
  Qed.
  Lemma one_positional p sub a x : positionals p = [a] -> a_nargs a = N1 -> a_kind a = Store -> plain x ->
    parse_known accepts p sub [x] = if allowedb accepts a x then finish p ([], [], mkSt (dset (initial p) (a_dest a) (VConv (a_conv a) x)) [a_dest a] []) else Exit Usage.
  Proof.
    intros P N K Px. unfold parse_known. assert (tags p [x] = Done [(x, TArg)]) as -> by exact (tags_plain p [x] [] ltac:(constructor; [exact Px|constructor])).
    cbn [obind List.length]. rewrite P. cbn [parse_loop existsb snd is_opt orb negb].
    unfold consume_positionals. cbn [List.length map snd]. rewrite N. change (match_partial 1 [N1] [TArg]) with [1%nat]. cbn [take_pos firstn skipn map fst].
    rewrite take_plain by auto. destruct (allowedb accepts a x); reflexivity.
  Qed.
  Definition corpusstats_parser : parser := mkParser [help_action; mkAction [] "metadata" N1 Store CFile None (Some VNone) true ""] (func "corpusStats").
  Lemma corpusstats_known m : plain m ->
    parse_known accepts corpusstats_parser no_sub [m] =
    if accepts CFile m then Done ([("metadata", VConv CFile m); ("func", VConst "corpusStats")], []) else Exit Usage.
  Proof.
    intros P. rewrite (one_positional corpusstats_parser no_sub (mkAction [] "metadata" N1 Store CFile None (Some VNone) true "") m) by (auto; reflexivity).
    unfold allowedb. cbn [a_conv a_choices]. rewrite Bool.andb_true_r. destruct (accepts CFile m); reflexivity.
  Qed.
  Lemma corpus_line pre m : Forall (fits (pr_main analyze_program)) pre -> plain m ->
    let r := parse_args accepts analyze_program (flat_map words pre ++ ["corpusstats"; m]) in
    (Forall (good accepts (pr_main analyze_program)) pre /\ accepts CFile m = true -> exists ns, r = Done ns /\ option_values (pr_main analyze_program) pre ns /\
      dget ns "func" = Some (VConst "corpusStats") /\ dget ns "metadata" = Some (VConv CFile m)) /\
    (~ (Forall (good accepts (pr_main analyze_program)) pre /\ accepts CFile m = true) -> r = Exit Usage).
  Proof.
    intros F Pm. cbv zeta. pose proof analyze_in as H. assert (In ("corpusstats", corpusstats_parser) (pr_subs analyze_program)) as S by (do 9 right; left; reflexivity).
    destruct (sub_wf _ _ _ H S) as [D W].
    pose proof (no_many (pr_main analyze_program) pre eq_refl F) as M.
    assert (Forall (readable (pr_main analyze_program)) [m]) as R by (constructor; [now apply plain_readable|constructor]).
    pose proof (plain_name _ _ _ H S) as Pn. pose proof (corpusstats_known m Pm) as KK.
    destruct (Forall_dec _ (good_dec (pr_main analyze_program)) pre) as [G|G].
    - destruct (command_line accepts analyze_program sub_action pre "corpusstats" corpusstats_parser [m] (main_wf _ H) eq_refl eq_refl F M Pn D R eq_refl G) as [LE LD].
      destruct (accepts CFile m).
      + split; [intros _|tauto]. destruct (LD _ KK) as [ns [En [C1 C2]]].
        { repeat constructor; cbn; intuition discriminate. }
        { intros b [<-|[<-|[<-|[<-|[]]]]]; reflexivity. }
        exists ns. split; [exact En|]. split; [exact C1|]. rewrite !C2 by (cbn; intuition discriminate). split; reflexivity.
      + split; [intros [_ Q]; discriminate Q|intros _]. exact (LE Usage KK).
    - split; [tauto|intros _]. pose proof (main_bad accepts analyze_program pre "corpusstats" [m] (main_wf _ H) F M Pn R [] ltac:(constructor) G) as Q. exact Q.
  Qed.

  (** lulua-write *)
  Lemma write_line pre l mid filters post : Forall (fits (pr_main write_program)) (pre ++ mid ++ post) -> plain l -> filters <> [] -> Forall plain filters ->
    let r := parse_args accepts write_program (flat_map words pre ++ l :: flat_map words mid ++ filters ++ flat_map words post) in
    let ok := Forall (good accepts (pr_main write_program)) (pre ++ mid ++ post) /\ incl filters filterAvail in
    (ok -> exists ns, r = Done ns /\ option_values (pr_main write_program) (pre ++ mid ++ post) ns /\ dget ns "layout" = Some (strv l) /\ dget ns "filter" = Some (VList (map strv filters))) /\
    (~ ok -> r = Exit Usage).
  Proof.
    intros F Pl N Pf. cbv zeta. pose proof (main_wf _ write_in) as W. set (p := pr_main write_program) in *.
    pose proof F as F0. rewrite !Forall_app in F. destruct F as [F1 [F2 F3]].
    set (a := pos "layout" "Keyboard layout name"). set (b := mkAction [] "filter" NPlus Store CStr (Some filterAvail) (Some VNone) true "Data filter").
    assert (In a (p_actions p) /\ In b (p_actions p)) as [Ia Ib] by (split; [do 5 right; left; reflexivity|do 6 right; left; reflexivity]).
    assert (forallb (fun i => negb (is_many i)) (pre ++ mid) = true) as M.
    { apply (no_many p); [reflexivity|]. rewrite Forall_app. auto. }
    unfold parse_args. fold p. rewrite (two_positionals accepts p (subs_of accepts write_program) a b pre l mid filters post W eq_refl eq_refl eq_refl N F1 F2 F3 M Pl Pf).
    destruct (initial_spec p W) as [I1 [I2 I3]].
    destruct (Forall_dec _ (good_dec p) pre) as [G1|G1].
    2:{ rewrite (acts_bad accepts p pre _ W F1 G1). split; [|reflexivity]. rewrite Forall_app. tauto. }
    destruct (acts_good accepts p pre (init_st p) W F1 G1) as [s [A1 [A2 [A3 [A4 [A5 A6]]]]]]. rewrite A1. cbn [obind].
    rewrite (take_plain p (subs_of accepts write_program) a l s eq_refl eq_refl Pl). change (allowedb accepts a l) with true. cbn [obind].
    change (a_dest a) with "layout". change (a_conv a) with CStr. set (s1 := mkSt (dset (s_ns s) "layout" (VConv CStr l)) ("layout" :: s_seen s) (s_extras s)).
    destruct (Forall_dec _ (good_dec p) mid) as [G2|G2].
    2:{ rewrite (acts_bad accepts p mid _ W F2 G2). split; [|reflexivity]. rewrite !Forall_app. tauto. }
    destruct (acts_good accepts p mid s1 W F2 G2) as [s2 [B1 [B2 [B3 [B4 [B5 B6]]]]]]. rewrite B1. cbn [obind].
    rewrite (take_plains p (subs_of accepts write_program) b filters s2 eq_refl eq_refl Pf).
    assert (forallb (allowedb accepts b) filters = true <-> incl filters filterAvail) as Q.
    { rewrite forallb_forall. split; intros K x Hx; specialize (K x Hx).
      - apply allowedb_spec in K. exact (proj2 K).
      - apply allowedb_spec. split; [left; reflexivity|exact K]. }
    destruct (forallb (allowedb accepts b) filters).
    2:{ split; [intros [_ K]; apply Q in K; discriminate K|reflexivity]. }
    assert (incl filters filterAvail) as QT by now apply Q. cbn [obind]. set (s3 := mkSt (dset (s_ns s2) (a_dest b) _) _ _).
    destruct (Forall_dec _ (good_dec p) post) as [G3|G3].
    2:{ rewrite (acts_bad accepts p post _ W F3 G3). split; [|reflexivity]. rewrite !Forall_app. tauto. }
    destruct (acts_good accepts p post s3 W F3 G3) as [s4 [D1 [D2 [D3 [D4 [D5 D6]]]]]]. rewrite D1. cbn [obind finish].
    assert (forall c, In c (p_actions p) -> a_opts c <> [] -> a_dest c <> "layout" /\ a_dest c <> "filter") as ND.
    { intros c Hc Ho. split; intros K.
      - apply (wf_dest _ c a W Hc Ia) in K. subst c. now elim Ho.
      - apply (wf_dest _ c b W Hc Ib) in K. subst c. now elim Ho. }
    rewrite (not_required p _ W).
    - split; [intros _|rewrite !Forall_app; tauto]. rewrite D2. cbn [s3 s_extras]. rewrite B2. cbn [s1 s_extras]. rewrite A2. cbn [init_st s_extras app map obind].
      exists (s_ns s4). split; [reflexivity|]. split; [|split].
      + intros c d Hc Ho Hd. destruct (ND c Hc Ho) as [N1' N2']. rewrite app_assoc, <- !expected_app. rewrite (D4 c (expected c (expected c d pre) mid) Hc Ho); [reflexivity|].
        cbn [s3 s_ns]. rewrite dget_dset. destruct (eqb_spec (a_dest c) (a_dest b)) as [K|_]; [now elim N2'|].
        apply B4; auto. cbn [s1 s_ns]. rewrite dget_dset. destruct (eqb_spec (a_dest c) "layout") as [K|_]; [now elim N1'|].
        apply A4; auto. unfold init_st. cbn [s_ns]. now rewrite (I1 c Hc).
      + rewrite D3 by (intros c Hc Ho; apply ND; auto). cbn [s3 s_ns]. rewrite dget_dset. destruct (eqb_spec "layout" (a_dest b)) as [K|_]; [discriminate K|].
        rewrite B3 by (intros c Hc Ho; apply ND; auto). cbn [s1 s_ns]. apply dget_dset_same.
      + rewrite D3 by (intros c Hc Ho; apply ND; auto). cbn [s3 s_ns]. apply dget_dset_same.
    - intros c Hc _. apply D5. left. cbn [s3 s_seen]. change (positionals p) with [a; b] in Hc. destruct Hc as [<-|[<-|[]]]; [|now left].
      right. apply B5. left. now left.
  Qed.
End Lines.
