(** C96: the options of the programs, their values and defaults. *)
From Coq Require Import Ascii.
From Verif Require Import Base ArgModel ArgSpec ArgProofs ArgAccept ArgSound ArgPrograms PropsArgs.
Open Scope string_scope.
Open Scope list_scope.
Unset Implicit Arguments.

(** One value, maybe one of some; no value; one value every time, collected; values *)
Inductive takes := One (c : conv) (among : option (list string)) | Nothing | Each (c : conv) | Several (c : conv).
(** A program, what is written before and after the option, the names of the option, the
    variable, its values and its default *)
Definition setting : Type := program * list string * list string * list string * string * takes * value.
Definition of_program (pr : program) (after : list string) : list setting :=
  [(pr, [], after, ["-l"; "--layout"], "layout", One CStr None, VNone);
   (pr, [], after, ["-k"; "--keyboard"], "keyboard", One CStr None, VConv CStr "ibmpc105")].
(** stats.py:410-428, render.py:595-611, report.py:64-66, optimize.py:270-280, text.py:394-401 *)
Definition settings : list setting :=
  of_program analyze_program ["pretty"] ++ of_program render_program ["svg"; "out"] ++ of_program optimize_program [] ++
  [(analyze_program, ["triadfreq"], [], ["-c"; "--cutoff"], "cutoff", One CFloat None, VConst "0.5");
   (analyze_program, ["triadfreq"], [], ["-r"; "--reverse"], "reverse", Nothing, VBool false);
   (analyze_program, ["triadfreq"], [], ["-s"; "--sort"], "sort", One CStr (Some ["combined"; "effort"; "weight"]), VConv CStr "weight");
   (analyze_program, ["triadfreq"], [], ["-n"; "--limit"], "limit", One CInt None, VConst "0");
   (render_program, ["svg"], ["out"], ["-s"; "--style"], "style", One CFile None, VConst "data/render-svg.css");
   (render_program, ["svg"], ["out"], ["--heatmap"], "heatmap", One CYaml None, VNone);
   (report_program, [], [], ["-c"; "--corpus"], "corpus", Several CStr, VNone);
   (report_program, [], [], ["-l"; "--layoutstats"], "layoutstats", Several CStr, VNone);
   (optimize_program, [], [], ["--triad-limit"], "triadLimit", One CInt None, VConst "0");
   (optimize_program, [], [], ["-n"; "--steps"], "steps", One CInt None, VConst "10000");
   (optimize_program, [], [], ["-r"; "--randomize"], "randomize", Nothing, VBool false);
   (optimize_program, [], [], ["-p"; "--pin"], "pin", One CPin None, VList []);
   (optimize_program, [], [], ["-m"; "--model"], "model", One CStr (Some ["mod01"; "salvo"]), VConv CStr "mod01");
   (optimize_program, [], [], ["-s"; "--mutate"], "mutate", Each CMutation, VList []);
   (write_program, [], ["ar-lulua"; "text"], ["--benchmark"], "benchmark", Nothing, VBool false);
   (write_program, [], ["ar-lulua"; "text"], ["-j"; "--jobs"], "jobs", One CInt None, VConst "cpu_count ()");
   (write_program, [], ["ar-lulua"; "text"], ["-k"; "--keyboard"], "keyboard", One CStr None, VConv CStr "ibmpc105");
   (write_program, [], ["ar-lulua"; "text"], ["-v"; "--verbose"], "verbose", Nothing, VBool false)].

Section Settings.
  Variable accepts : conv -> string -> bool.
  Definition fine (c : conv) (among : option (list string)) (s : string) : Prop :=
    (c = CStr \/ accepts c s = true) /\ match among with Some l => In s l | None => True end.
  (** What the option gives in a command line otherwise minimal *)
  Definition works (pr : program) (before after : list string) (o dest : string) (k : takes) : Prop :=
    let run ws := parse_args accepts pr (before ++ ws ++ after) in
    let gives ws v := exists ns, run ws = Done ns /\ dget ns dest = Some v in
    match k with
    | One c among => forall s, plain s -> (fine c among s -> gives [o; s] (VConv c s)) /\ (~ fine c among s -> run [o; s] = Exit Usage)
    | Nothing => gives [o] (VBool true)
    | Each c => forall s t, plain s -> plain t ->
        (fine c None s -> gives [o; s] (VList [VConv c s]) /\ (fine c None t -> gives [o; s; o; t] (VList [VConv c s; VConv c t]))) /\ (~ fine c None s -> run [o; s] = Exit Usage)
    | Several c => after = [] -> forall s l, Forall plain (s :: l) ->
        (Forall (fine c None) (s :: l) -> gives (o :: s :: l) (VList (map (VConv c) (s :: l)))) /\ (~ Forall (fine c None) (s :: l) -> run (o :: s :: l) = Exit Usage)
    end.
End Settings.

(** * Proofs *)
Definition matches (a : action) (k : takes) : Prop :=
  match k with
  | One c among => a_nargs a = N1 /\ a_kind a = Store /\ a_conv a = c /\
      match a_choices a, among with Some l, Some l' => forall s, In s l <-> In s l' | None, None => True | _, _ => False end
  | Nothing => a_nargs a = N0 /\ a_kind a = StoreTrue
  | Each c => a_nargs a = N1 /\ a_kind a = Append /\ a_conv a = c /\ a_choices a = None /\ a_default a = Some (VList [])
  | Several c => a_nargs a = NPlus /\ a_kind a = Store /\ a_conv a = c /\ a_choices a = None
  end.
Section Row.
  Variables (accepts : conv -> string -> bool) (pr : program) (before after : list string) (p : parser).
  Hypothesis Hwf : wf_parser p = true.
  Hypothesis Hline : forall items, Forall (fits p) items ->
    (Forall (good accepts p) items -> exists ns, parse_args accepts pr (before ++ flat_map words items ++ after) = Done ns /\ option_values p items ns) /\
    (~ Forall (good accepts p) items -> parse_args accepts pr (before ++ flat_map words items ++ after) = Exit Usage).
  Variables (a : action) (d : value).
  Hypothesis Ha : In a (p_actions p).
  Hypothesis Hd : a_default a = Some d.
  Lemma row_default : a_opts a <> [] -> exists ns, parse_args accepts pr (before ++ after) = Done ns /\ dget ns (a_dest a) = Some d.
  Proof.
    intros N. destruct (Hline [] (Forall_nil _)) as [A _]. destruct (A (Forall_nil _)) as (ns & E & V). exists ns. split; [exact E|].
    rewrite (V a d Ha N Hd). unfold expected, mine. destruct (a_kind a); reflexivity.
  Qed.
  Lemma row_good o i : In o (a_opts a) -> item_opt i = o -> (good accepts p i <-> Forall (allowed accepts a) (given_strings i)).
  Proof.
    intros Io <-. unfold good. split; [intros H; exact (H a Ha Io)|]. intros H b Ib Ob. rewrite <- (wf_opt p a b (item_opt i) Hwf Ha Ib Io Ob). exact H.
  Qed.
  Lemma row_works o k : In o (a_opts a) -> matches a k -> works accepts pr before after o (a_dest a) k.
  Proof.
    intros Io M. assert (No : a_opts a <> []) by (intros E; rewrite E in Io; destruct Io).
    assert (Mem : mem o (a_opts a) = true) by (apply mem_In; exact Io).
    destruct k as [c among| |c|c]; unfold works; cbn [matches] in M.
    - destruct M as (M1 & M2 & M3 & M4). intros s Ps.
      assert (F : Forall (fits p) [Given o s]) by (constructor; [exists a; split; [exact Ha|]; split; [exact Io|]; auto|constructor]).
      assert (G : Forall (good accepts p) [Given o s] <-> fine accepts c among s).
      { rewrite Forall_cons_iff, (row_good o (Given o s) Io eq_refl). cbn [given_strings]. rewrite Forall_cons_iff. unfold allowed, fine. rewrite M3.
        destruct (a_choices a) as [l|], among as [l'|]; try contradiction; [rewrite M4|]; intuition constructor. }
      destruct (Hline _ F) as [A B]. split.
      + intros K. destruct (A (proj2 G K)) as (ns & E & V). exists ns. split; [exact E|]. rewrite (V a d Ha No Hd). unfold expected, mine. rewrite M2.
        cbn [filter item_opt]. rewrite Mem. cbn [map value_of last]. rewrite M3. reflexivity.
      + intros K. apply B. intros K'. apply K, G, K'.
    - destruct M as (M1 & M2).
      assert (F : Forall (fits p) [Flag o]) by (constructor; [exists a; split; [exact Ha|]; split; [exact Io|]; auto|constructor]).
      destruct (Hline _ F) as [A _]. destruct A as (ns & E & V); [constructor; [|constructor]; apply (row_good o (Flag o) Io eq_refl); constructor|].
      exists ns. split; [exact E|]. rewrite (V a d Ha No Hd). unfold expected, mine. rewrite M2. cbn [filter item_opt]. rewrite Mem. reflexivity.
    - destruct M as (M1 & M2 & M3 & M4 & M5). rewrite M5 in Hd. injection Hd as <-.
      intros s t Ps Pt.
      assert (F1 : forall s, plain s -> fits p (Given o s)) by (intros u Pu; exists a; split; [exact Ha|]; split; [exact Io|]; auto).
      assert (G1 : forall s, good accepts p (Given o s) <-> fine accepts c None s).
      { intros u. rewrite (row_good o (Given o u) Io eq_refl). cbn [given_strings]. rewrite Forall_cons_iff. unfold allowed, fine. rewrite M3, M4. intuition constructor. }
      split.
      + intros K. split.
        * destruct (Hline [Given o s]) as [A _]; [auto|]. destruct A as (ns & E & V); [constructor; [now apply G1|constructor]|].
          exists ns. split; [exact E|]. rewrite (V a _ Ha No M5). unfold expected, mine. rewrite M2. cbn [filter item_opt]. rewrite Mem. cbn [map value_of app]. rewrite M3. reflexivity.
        * intros K2. destruct (Hline [Given o s; Given o t]) as [A _]; [auto|]. destruct A as (ns & E & V); [constructor; [now apply G1|]; constructor; [now apply G1|constructor]|].
          exists ns. split; [exact E|]. rewrite (V a _ Ha No M5). unfold expected, mine. rewrite M2. cbn [filter item_opt]. rewrite Mem. cbn [map value_of app]. rewrite M3. reflexivity.
      + intros K. destruct (Hline [Given o s]) as [_ B]; [auto|]. apply B. intros K'. apply Forall_cons_iff in K' as [K' _]. apply K, G1, K'.
    - destruct M as (M1 & M2 & M3 & M4). intros Ea s l Pl.
      assert (F : Forall (fits p) [Many o s l]) by (constructor; [exists a; split; [exact Ha|]; split; [exact Io|]; auto|constructor]).
      assert (G : Forall (good accepts p) [Many o s l] <-> Forall (fine accepts c None) (s :: l)).
      { rewrite Forall_cons_iff, (row_good o (Many o s l) Io eq_refl). cbn [given_strings]. unfold allowed, fine. rewrite M3, M4. intuition constructor. }
      destruct (Hline _ F) as [A B]. cbn [flat_map words] in A, B. rewrite app_nil_r in A, B. split.
      + intros K. destruct (A (proj2 G K)) as (ns & E & V). exists ns. split; [exact E|]. rewrite (V a d Ha No Hd). unfold expected, mine. rewrite M2.
        cbn [filter item_opt]. rewrite Mem. cbn [map value_of last]. rewrite M3. reflexivity.
      + intros K. apply B. intros K'. apply K, G, K'.
  Qed.
End Row.

Definition line (accepts : conv -> string -> bool) (pr : program) (before after : list string) (p : parser) : Prop :=
  wf_parser p = true /\ forall items, Forall (fits p) items ->
    (Forall (good accepts p) items -> exists ns, parse_args accepts pr (before ++ flat_map words items ++ after) = Done ns /\ option_values p items ns) /\
    (~ Forall (good accepts p) items -> parse_args accepts pr (before ++ flat_map words items ++ after) = Exit Usage).
Definition sub_parser (pr : program) (cmd : string) : parser := match dget (pr_subs pr) cmd with Some p => p | None => pr_main pr end.
Lemma line_analyze accepts : line accepts analyze_program [] ["pretty"] (pr_main analyze_program).
Proof.
  split; [reflexivity|]. intros items F.
  destruct (C96_analyze accepts items "pretty" (sub_parser analyze_program "pretty") [] F (or_introl eq_refl) ltac:(discriminate) (Forall_nil _)) as [A B].
  cbn [app]. split.
  - intros K. destruct (A (conj K (Forall_nil _))) as (ns & E & V & _). exists ns. auto.
  - intros K. apply B. tauto.
Qed.
Lemma line_triadfreq accepts : line accepts analyze_program ["triadfreq"] [] (sub_parser analyze_program "triadfreq").
Proof.
  split; [reflexivity|]. intros items F.
  destruct (C96_analyze accepts [] "triadfreq" (sub_parser analyze_program "triadfreq") items (Forall_nil _) ltac:(do 3 right; left; reflexivity) ltac:(discriminate) F) as [A B].
  rewrite app_nil_r. split.
  - intros K. destruct (A (conj (Forall_nil _) K)) as (ns & E & _ & V & _). exists ns. auto.
  - intros K. apply B. tauto.
Qed.
Lemma line_render accepts : line accepts render_program [] ["svg"; "out"] (pr_main render_program).
Proof.
  split; [reflexivity|]. intros items F.
  destruct (C96_render accepts items "svg" (sub_parser render_program "svg") [] "out" F (or_introl eq_refl) (Forall_nil _) eq_refl) as [A B].
  cbn [app]. split.
  - intros K. destruct (A (conj K (Forall_nil _))) as (ns & E & V & _). exists ns. auto.
  - intros K. apply B. tauto.
Qed.
Lemma line_svg accepts : line accepts render_program ["svg"] ["out"] (sub_parser render_program "svg").
Proof.
  split; [reflexivity|]. intros items F.
  destruct (C96_render accepts [] "svg" (sub_parser render_program "svg") items "out" (Forall_nil _) (or_introl eq_refl) F eq_refl) as [A B].
  split.
  - intros K. destruct (A (conj (Forall_nil _) K)) as (ns & E & _ & V & _). exists ns. auto.
  - intros K. apply B. tauto.
Qed.
Lemma line_options accepts pr : In pr [report_program; optimize_program] -> line accepts pr [] [] (pr_main pr).
Proof.
  intros H. split; [destruct H as [<-|[<-|[]]]; reflexivity|]. intros items F. rewrite app_nil_r. exact (C96_options accepts pr items H F).
Qed.
Lemma line_write accepts : line accepts write_program [] ["ar-lulua"; "text"] (pr_main write_program).
Proof.
  split; [reflexivity|]. intros items F.
  destruct (C96_write accepts items "ar-lulua" [] ["text"] []) as [A B]; [rewrite app_nil_r; exact F|reflexivity|discriminate|repeat constructor|].
  cbn [app flat_map] in A, B |- *. rewrite app_nil_r in A, B.
  assert (I : incl ["text"] filterAvail) by (intros x [<-|[]]; apply mem_In; reflexivity). split.
  - intros K. destruct (A (conj K I)) as (ns & E & V & _). exists ns. auto.
  - intros K. apply B. tauto.
Qed.

Lemma row_at q accepts pr before after p opts dest k d o : line accepts pr before after p ->
  (exists a, nth_error (p_actions p) q = Some a /\ a_default a = Some d /\ a_opts a = opts /\ a_dest a = dest /\ matches a k) -> In o opts ->
  works accepts pr before after o dest k /\ exists ns, parse_args accepts pr (before ++ after) = Done ns /\ dget ns dest = Some d.
Proof.
  intros [W L] (a & E & Da & <- & <- & M) Io. apply nth_error_In in E. split; [exact (row_works accepts pr before after p W L a d E Da o k Io M)|].
  apply (row_default accepts pr before after p L a d E Da). intros E'. rewrite E' in Io. destruct Io.
Qed.
Ltac matching := cbn [matches]; repeat (split; [reflexivity|]); first [exact I|reflexivity|cbn [In]; tauto|cbn; intros; tauto].
Ltac row_with L q Io := solve [refine (row_at q _ _ _ _ _ _ _ _ _ _ (L _) _ Io); eexists; split; [reflexivity|]; split; [reflexivity|]; split; [reflexivity|]; split; [reflexivity|matching]].
Ltac row L Io := first [row_with L 1 Io|row_with L 2 Io|row_with L 3 Io|row_with L 4 Io|row_with L 5 Io|row_with L 6 Io|row_with L 7 Io|row_with L 8 Io].
(** Every option has the value given, which is checked, and the default otherwise. *)
Theorem C96_settings accepts pr before after opts dest k d o : In (pr, before, after, opts, dest, k, d) settings -> In o opts ->
  works accepts pr before after o dest k /\ exists ns, parse_args accepts pr (before ++ after) = Done ns /\ dget ns dest = Some d.
Proof.
  intros I Io. cbn [settings of_program app In] in I.
  assert (Lr := fun accepts => line_options accepts report_program (or_introl eq_refl)).
  assert (Lo := fun accepts => line_options accepts optimize_program (or_intror (or_introl eq_refl))).
  repeat (destruct I as [I|I]; [injection I; clear I; intros <- <- <- <- <- <- <-;
    first [row line_analyze Io|row line_triadfreq Io|row line_render Io|row line_svg Io|row Lr Io|row Lo Io|row line_write Io]|]).
  destruct I.
Qed.
(** These are all options but --help. *)
Theorem C96_settings_all pr a : In pr programs ->
  (In a (p_actions (pr_main pr)) -> a_opts a = [] \/ a_opts a = ["-h"; "--help"] \/
    exists after dest k d, In (pr, [], after, a_opts a, dest, k, d) settings) /\
  (forall cmd sp, In (cmd, sp) (pr_subs pr) -> In a (p_actions sp) -> a_opts a = [] \/ a_opts a = ["-h"; "--help"] \/
    exists after dest k d, In (pr, [cmd], after, a_opts a, dest, k, d) settings).
Proof.
  intros H. cbn [programs In] in H. Ltac find_row := first [left; reflexivity|right; find_row].
  Ltac one_act I := repeat (destruct I as [<-|I]; [first [left; reflexivity|right; left; reflexivity|right; right; do 4 eexists; cbn [settings of_program app In]; find_row]|]); destruct I.
  repeat (destruct H as [<-|H]; [split; [intros I; cbn in I; one_act I|
    intros cmd sp S; cbn in S; repeat (destruct S as [S|S]; [injection S; clear S; intros <- <-; intros I; cbn in I; one_act I|]); destruct S]|]). destruct H.
Qed.
Example C96_settings_example :
  (exists ns, parse_args everything analyze_program ["triadfreq"; "-s"; "effort"; "-r"] = Done ns /\ dget ns "sort" = Some (VConv CStr "effort") /\
    dget ns "cutoff" = Some (VConst "0.5") /\ dget ns "reverse" = Some (VBool true)) /\
  parse_args everything analyze_program ["triadfreq"; "-s"; "random"] = Exit Usage /\
  exists ns, parse_args everything optimize_program ["--mutate"; "a"; "-s"; "b"] = Done ns /\ dget ns "mutate" = Some (VList [VConv CMutation "a"; VConv CMutation "b"]) /\
    dget ns "steps" = Some (VConst "10000").
Proof.
  split; [eexists; split; [vm_compute; reflexivity|repeat split]|]. split; [vm_compute; reflexivity|]. eexists. split; [vm_compute; reflexivity|repeat split].
Qed.
Print Assumptions C96_settings.
Print Assumptions C96_settings_all.
