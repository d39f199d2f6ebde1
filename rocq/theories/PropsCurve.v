(** C85, C86: the plot of effort curves and the files it is made of; characters of a file. *)
From Coq Require Import QArith Lqa.
From Verif Require Import Base UtilModel LayoutModel LayoutSpec LayoutProofs WriterModel StatsModel StatsSpec CarpalxModel CarpalxSpec CarpalxQ OptModel.
From Verif Require Import TextModel FilterModel PlotModel PlotSpec PlotProofs DataLayouts CurveModel.
From Verif Require PropsPlot.
Close Scope Q_scope.
Open Scope string_scope.
Open Scope list_scope.
Unset Implicit Arguments.

(** * Concatenated pickles *)
(** What is needed of pickle: an object written is read back whatever follows,
    nothing is at the end of a file, and no object is written as nothing. *)
Definition reads_back {A} (dump : A -> list N) (load : list N -> loaded A) : Prop :=
  (forall x r, load (dump x ++ r) = Loaded x r) /\ load [] = AtEnd /\ forall x, dump x <> [].
Lemma unpickle_loop_app {A} (dump : A -> list N) (load : list N -> loaded A) : (forall x r, load (dump x ++ r) = Loaded x r) -> (forall x, dump x <> []) ->
  forall xs r fuel, List.length (concat (map dump xs) ++ r) < fuel ->
  exists fuel', List.length r < fuel' /\ unpickle_loop load fuel (concat (map dump xs) ++ r) =
    (xs ++ fst (unpickle_loop load fuel' r), snd (unpickle_loop load fuel' r)).
Proof.
  intros Rt Ne. induction xs as [|x xs IH]; intros r fuel Hf.
  - exists fuel. split; [exact Hf|]. cbn. destruct (unpickle_loop load fuel r); reflexivity.
  - destruct fuel as [|fuel]; [lia|]. cbn [map concat] in *. rewrite <- app_assoc in *. cbn [unpickle_loop]. rewrite Rt.
    destruct (IH r fuel) as (fuel' & Hl & E). { rewrite app_length in Hf. destruct (dump x) eqn:Ed; [destruct (Ne x Ed)|cbn in Hf; lia]. }
    exists fuel'. split; [exact Hl|]. rewrite E. reflexivity.
Qed.
(** Files of pickled objects can be concatenated (gen.sh:109): the objects of all files
    are read, in order. *)
Theorem C85_concatenated {A} (dump : A -> list N) load (files : list (list A)) : reads_back dump load ->
  unpickleAll load (concat (map (fun f => concat (map dump f)) files)) = (concat files, None) /\
  unpickle_list load (concat (map (fun f => concat (map dump f)) files)) = Ok (concat files).
Proof.
  intros (Rt & En & Ne). assert (H : unpickleAll load (concat (map dump (concat files))) = (concat files, None)).
  { unfold unpickleAll. destruct (unpickle_loop_app dump load Rt Ne (concat files) [] (S (List.length (concat (map dump (concat files)))))) as (f & Hf & E).
    { rewrite app_nil_r. lia. }
    rewrite app_nil_r in E. rewrite E. destruct f as [|f]; [cbn in Hf; lia|]. cbn. rewrite En. cbn. rewrite app_nil_r. reflexivity. }
  assert (Ec : concat (map (fun f => concat (map dump f)) files) = concat (map dump (concat files))).
  { clear. induction files as [|f fs IH]; [reflexivity|]. cbn. rewrite IH, map_app, concat_app. reflexivity. }
  unfold unpickle_list. rewrite Ec, H. split; reflexivity.
Qed.
(** A file cut off is not noticed if pickle says EOFError for what is left of its last
    object: the objects before are read, the last is missing.  Other exceptions are
    passed on after the objects before. *)
Theorem C85_cut {A} (dump : A -> list N) load (xs : list A) r : reads_back dump load ->
  match load r with
  | AtEnd => unpickleAll load (concat (map dump xs) ++ r) = (xs, None) /\ unpickle_list load (concat (map dump xs) ++ r) = Ok xs
  | Broken e => unpickleAll load (concat (map dump xs) ++ r) = (xs, Some e) /\ unpickle_list load (concat (map dump xs) ++ r) = Raise e
  | Loaded _ _ => True
  end.
Proof.
  intros (Rt & _ & Ne). unfold unpickle_list, unpickleAll.
  destruct (unpickle_loop_app dump load Rt Ne xs r (S (List.length (concat (map dump xs) ++ r)))) as (f & Hf & E); [lia|].
  destruct f as [|f]; [lia|]. rewrite E. cbn [unpickle_loop]. destruct (load r); [exact I| |]; cbn; rewrite app_nil_r; split; reflexivity.
Qed.
(** A format in which an object is a number of bytes, preceded by how many they are *)
Definition ex_dump (x : list N) : list N := N.of_nat (List.length x) :: x.
Definition ex_load (fd : list N) : loaded (list N) :=
  match fd with
  | [] => AtEnd
  | n :: r => if (N.to_nat n <=? List.length r)%nat then Loaded (firstn (N.to_nat n) r) (skipn (N.to_nat n) r) else AtEnd
  end.
Lemma C85_example_format : reads_back ex_dump ex_load.
Proof.
  split; [|split; [reflexivity|discriminate]]. intros x r. unfold ex_dump. cbn [app ex_load]. rewrite Nnat.Nat2N.id.
  rewrite (proj2 (Nat.leb_le _ _)) by (rewrite app_length; lia). rewrite firstn_app, skipn_app, Nat.sub_diag, firstn_all, skipn_all.
  cbn. rewrite app_nil_r. reflexivity.
Qed.
Example C85_example_files : unpickleAll ex_load ([2; 7; 8] ++ [1; 9; 0])%N = ([[7; 8]; [9]; []]%N, None).
Proof. reflexivity. Qed.
Example C85_example_cut : unpickleAll ex_load [2; 7; 8; 3; 1; 1]%N = ([[7; 8]]%N, None).
Proof. reflexivity. Qed.

(** * Lines *)
Lemma add_lines data colors lines :
  foldM add_line (combine data colors) lines =
  if nodupb (map cu_name (firstn (List.length colors) data)) && forallb (fun c => negb (dhas lines (cu_name c))) (firstn (List.length colors) data)
  then Ok (lines ++ map (fun oc => (cu_name (fst oc), mkLine (cu_points (fst oc)) (snd oc))) (combine data colors)) else Raise AssertionError.
Proof.
  revert colors lines. induction data as [|o data IH]; intros colors lines; [destruct colors; cbn; rewrite app_nil_r; reflexivity|].
  destruct colors as [|c colors]; [cbn; rewrite app_nil_r; reflexivity|]. cbn [combine foldM List.length firstn map nodupb forallb fst snd].
  unfold add_line at 1. unfold assert_. cbn [fst snd]. destruct (dhas lines (cu_name o)) eqn:Eh; cbn [negb andb bind]; [rewrite !andb_false_r; reflexivity|].
  rewrite IH. assert (Es : dset lines (cu_name o) (mkLine (cu_points o) c) = lines ++ [(cu_name o, mkLine (cu_points o) c)]).
  { clear -Eh. unfold dhas in Eh. induction lines as [|[k v] l IHl]; [reflexivity|]. cbn [dset dget app] in *. destruct (eqb (cu_name o) k); [discriminate Eh|]. rewrite IHl by exact Eh. reflexivity. }
  rewrite Es, <- app_assoc. cbn [app]. set (fd := firstn (List.length colors) data).
  assert (Ha : forallb (fun c0 => negb (dhas (lines ++ [(cu_name o, mkLine (cu_points o) c)]) (cu_name c0))) fd =
               negb (mem (cu_name o) (map cu_name fd)) && forallb (fun c0 => negb (dhas lines (cu_name c0))) fd).
  { clear. induction fd as [|a fd IHf]; [reflexivity|]. cbn [forallb map]. rewrite IHf.
    assert (Hd : dhas (lines ++ [(cu_name o, mkLine (cu_points o) c)]) (cu_name a) = eqb (cu_name a) (cu_name o) || dhas lines (cu_name a)).
    { clear. unfold dhas. induction lines as [|[k v] l IHl]; cbn [app dget]; [destruct (eqb (cu_name a) (cu_name o)); reflexivity|].
      destruct (eqb (cu_name a) k); [rewrite orb_true_r; reflexivity|exact IHl]. }
    rewrite Hd. cbn [mem existsb]. replace (eqb (cu_name o) (cu_name a)) with (eqb (cu_name a) (cu_name o)).
    - fold (mem (cu_name o) (map cu_name fd)). destruct (eqb (cu_name a) (cu_name o)), (dhas lines (cu_name a)), (mem (cu_name o) (map cu_name fd)), (forallb (fun c0 => negb (dhas lines (cu_name c0))) fd); reflexivity.
    - apply eqb_sym. }
  rewrite Ha. destruct (mem (cu_name o) (map cu_name fd)), (nodupb (map cu_name fd)), (forallb (fun c0 => negb (dhas lines (cu_name c0))) fd); reflexivity.
Qed.
Definition named (data : list curve) : list string := map cu_name data.
Lemma set3_firstn n colors : Set3 n = Some colors -> 3 <= n <= 12 /\ List.length colors = n /\ NoDup colors.
Proof.
  unfold Set3. destruct (Nat.leb 3 n && Nat.leb n 12) eqn:E; [|discriminate 1]. intros [= <-]. apply andb_true_iff in E as [E1 E2].
  apply Nat.leb_le in E1, E2. split; [lia|]. split; [rewrite firstn_length; cbn [set3 List.length]; lia|].
  assert (N : NoDup set3) by (apply nodupb_NoDup; reflexivity). rewrite <- (firstn_skipn n set3) in N. clear -N.
  induction (firstn n set3) as [|c l IH]; [constructor|]. inversion N; subst. constructor; [|apply IH; assumption]. intros I. apply H1, in_or_app. left. exact I.
Qed.
Lemma map_combine_fst {A B C} (f : A -> C) (l : list A) (m : list B) : List.length l <= List.length m -> map (fun x => f (fst x)) (combine l m) = map f l.
Proof.
  revert m. induction l as [|a l IH]; intros [|b m] H; cbn in *; [reflexivity..|lia|]. rewrite IH by lia. reflexivity.
Qed.
Lemma map_combine_snd {A B} (l : list A) (m : list B) : List.length m <= List.length l -> map snd (combine l m) = m.
Proof.
  revert m. induction l as [|a l IH]; intros [|b m] H; cbn in *; [reflexivity|lia|reflexivity|]. rewrite IH by lia. reflexivity.
Qed.
(** It works for three to twelve layouts of different names, and only for them. *)
Theorem C85_works data : (exists p, triadEffortPlot Set3 data = Ok p) <-> 3 <= List.length data <= 12 /\ NoDup (named data).
Proof.
  unfold triadEffortPlot. split.
  - intros (p & E). apply bind_inv in E as (colors & Ec & E). destruct (Set3 (List.length data)) as [cs|] eqn:Es; [|discriminate Ec]. injection Ec as ->.
    apply set3_firstn in Es as (R & Hl & _). split; [exact R|]. apply bind_inv in E as (lines & El & _). rewrite add_lines, Hl, firstn_all in El.
    apply nodupb_NoDup. fold (named data) in El. destruct (nodupb (named data)); [reflexivity|discriminate El].
  - intros (R & Nd). destruct (Set3 (List.length data)) as [cs|] eqn:Es.
    + cbn [of_opt bind]. apply set3_firstn in Es as (_ & Hl & _). rewrite add_lines, Hl, firstn_all. apply nodupb_NoDup in Nd. fold (named data). rewrite Nd.
      replace (forallb _ data) with true by (clear; induction data; cbn; auto). cbn [andb bind]. eexists. reflexivity.
    + unfold Set3 in Es. rewrite (proj2 (Nat.leb_le _ _) (proj1 R)), (proj2 (Nat.leb_le _ _) (proj2 R)) in Es. discriminate Es.
Qed.
(** Otherwise the exception is KeyError for the number of layouts, AssertionError for a
    name used twice. *)
Theorem C85_fails data e : triadEffortPlot Set3 data = Raise e ->
  e = KeyError /\ (List.length data < 3 \/ 12 < List.length data) \/ e = AssertionError /\ 3 <= List.length data <= 12 /\ ~ NoDup (named data).
Proof.
  unfold triadEffortPlot. destruct (Set3 (List.length data)) as [cs|] eqn:Es; cbn [of_opt bind].
  - apply set3_firstn in Es as (R & Hl & _). rewrite add_lines, Hl, firstn_all. fold (named data). destruct (nodupb (named data)) eqn:En.
    + replace (forallb _ data) with true by (clear; induction data; cbn; auto). discriminate 1.
    + intros [= <-]. right. split; [reflexivity|]. split; [exact R|]. intros Nd. apply nodupb_NoDup in Nd. rewrite Nd in En. discriminate En.
  - intros [= <-]. left. split; [reflexivity|]. unfold Set3 in Es. destruct (Nat.leb_spec 3 (List.length data)); [|left; assumption].
    destruct (Nat.leb_spec (List.length data) 12); [discriminate Es|right; assumption].
Qed.
(** Every layout has one line, of its own points, in the order of the files; no two lines
    have the same colour. *)
Theorem C85_lines data p : triadEffortPlot Set3 data = Ok p ->
  map (fun kl => (fst kl, ln_points (snd kl))) (pl_lines p) = map (fun o => (cu_name o, cu_points o)) data /\
  NoDup (map (fun kl => ln_color (snd kl)) (pl_lines p)).
Proof.
  unfold triadEffortPlot. intros E. apply bind_inv in E as (colors & Ec & E). destruct (Set3 (List.length data)) as [cs|] eqn:Es; [|discriminate Ec]. injection Ec as ->.
  apply set3_firstn in Es as (R & Hl & Nd). apply bind_inv in E as (lines & El & E). injection E as <-. cbn [pl_lines]. rewrite add_lines in El.
  match type of El with (if ?b then _ else _) = _ => destruct b; [|discriminate El] end. injection El as <-. cbn [app]. rewrite !map_map. cbn [fst snd ln_points ln_color].
  split; [apply (map_combine_fst (fun o => (cu_name o, cu_points o))); lia|]. rewrite map_combine_snd by lia. exact Nd.
Qed.
Lemma plot_parts data p : triadEffortPlot Set3 data = Ok p -> pl_visible p = presets (pl_lines p) /\ pl_ranges p = preset_ranges.
Proof.
  unfold triadEffortPlot. intros E. apply bind_inv in E as (colors & _ & E). apply bind_inv in E as (lines & _ & E). injection E as <-. split; reflexivity.
Qed.

(** * Buttons *)
(** What each of the three buttons shows *)
Definition shown_by (button : nat) (n : string) : bool :=
  match button with
  | 0 => true
  | 1 => mem n ["ar-asmo663"; "ar-linux"; "ar-osx"]
  | _ => mem n ["ar-lulua"; "ar-ergoarabic"; "ar-malas"; "ar-linux"; "ar-osx"]
  end.
(** A click on a button makes visible exactly the lines this button is for, whatever
    was visible before. *)
Theorem C85_click data p b v : triadEffortPlot Set3 data = Ok p -> b < 3 ->
  exists v', click p b v = Some v' /\ vw_shown v' = map (fun n => (n, shown_by b n)) (named data) /\
    vw_range v' = match b with 0 => ((0, 1), (0, 1))%Q | _ => ((0, 5 # 10), (0, 4 # 10))%Q end.
Proof.
  intros E Hb. pose proof (proj1 (C85_lines _ _ E)) as El. destruct (plot_parts _ _ E) as [Ev Er]. clear E.
  assert (En : map fst (pl_lines p) = named data).
  { apply (f_equal (map fst)) in El. rewrite !map_map in El. cbn in El. exact El. }
  unfold click. rewrite Ev, Er. destruct b as [|[|[|b]]]; [| | |lia]; cbn [nth_error presets preset_ranges]; (eexists; split; [reflexivity|split; [|reflexivity]]); cbn [vw_shown];
    rewrite <- En, map_map; [|reflexivity|reflexivity]. apply map_ext_in. intros kl I. cbn [shown_by]. f_equal.
  apply mem_In. unfold dkeys. apply in_map, I.
Qed.
(** At first everything is shown, and "All" returns to this. *)
Theorem C85_all data p b v v' : triadEffortPlot Set3 data = Ok p -> click p b v = Some v' -> click p 0 v' = Some (initial p) /\ Forall (fun s => snd s = true) (vw_shown (initial p)).
Proof.
  intros E _. split.
  - destruct (plot_parts _ _ E) as [Ev Er]. unfold click, initial. rewrite Ev, Er. cbn [nth_error presets preset_ranges]. f_equal. f_equal.
    apply map_ext_in. intros kl I. f_equal. apply mem_In. unfold dkeys. apply in_map, I.
  - cbn [initial vw_shown]. apply Forall_map, Forall_forall. reflexivity.
Qed.

(** * The report *)
(** The layouts of the report are shipped ones; they are as many as there are colours at
    most.  The buttons name layouts of the report only. *)
Theorem C85_report : incl gen_layouts (map gd_name all_layouts) /\ NoDup gen_layouts /\ List.length gen_layouts = 12 /\
  forall b n, 0 < b -> shown_by b n = true -> In n gen_layouts.
Proof.
  split; [|split; [apply nodupb_NoDup; reflexivity|split; [reflexivity|]]].
  - intros n I. apply mem_In. cbn in I. repeat destruct I as [<-|I]; [vm_compute; reflexivity..|destruct I].
  - intros [|[|b]] n Hb Hs; [lia| |]; cbn [shown_by] in Hs; apply mem_In in Hs; cbn in Hs; repeat destruct Hs as [<-|Hs];
      try (apply mem_In; reflexivity); destruct Hs.
Qed.
(** So the plot of the report is drawn, and "Standard" and "Usable" show three and five
    lines of it. *)
Theorem C85_report_plot data : named data = gen_layouts -> exists p, triadEffortPlot Set3 data = Ok p /\
  forall v, option_map (fun v' => map fst (filter snd (vw_shown v'))) (click p 1 v) = Some ["ar-asmo663"; "ar-linux"; "ar-osx"] /\
            option_map (fun v' => map fst (filter snd (vw_shown v'))) (click p 2 v) = Some ["ar-lulua"; "ar-linux"; "ar-malas"; "ar-osx"; "ar-ergoarabic"].
Proof.
  intros En. destruct (proj2 (C85_works data)) as (p & E).
  { rewrite En. split; [|apply nodupb_NoDup; reflexivity]. rewrite <- (map_length cu_name). fold (named data). rewrite En. cbn. lia. }
  exists p. split; [exact E|]. intros v. destruct (C85_click _ _ 1 v E) as (v1 & E1 & S1 & _); [lia|]. destruct (C85_click _ _ 2 v E) as (v2 & E2 & S2 & _); [lia|].
  rewrite E1, E2. cbn [option_map]. rewrite S1, S2, En. split; reflexivity.
Qed.
(** Another layout cannot be added to the report without changing the plot. *)
Theorem C85_report_full data o : named data = gen_layouts -> triadEffortPlot Set3 (data ++ [o]) = Raise KeyError.
Proof.
  intros En. destruct (triadEffortPlot Set3 (data ++ [o])) as [p|e] eqn:E.
  - destruct (proj1 (C85_works (data ++ [o]))) as [R _]; [exists p; exact E|]. exfalso. rewrite app_length in R. cbn in R.
    rewrite <- (map_length cu_name) in R. fold (named data) in R. rewrite En in R. cbn in R. lia.
  - destruct (C85_fails _ _ E) as [[-> _]|(_ & R & _)]; [reflexivity|]. exfalso. rewrite app_length in R. cbn in R.
    rewrite <- (map_length cu_name) in R. fold (named data) in R. rewrite En in R. cbn in R. lia.
Qed.
(** Whatever was computed from typed text lies within what "All" shows; the other two
    buttons always cut off the end of a curve. *)
Definition within (r : range * range) (a : Q * Q) : Prop := (fst (fst r) <= fst a <= snd (fst r) /\ fst (snd r) <= snd a <= snd (snd r))%Q.
Theorem C85_range L m ts c p data b v v' : triadEffortData L m ts = Ok (Some c) -> all_counts (fun v => 0 < v)%Z ts ->
  (forall t e, In t (dkeys ts) -> triadCompute m t = Ok e -> (0 <= e)%Q) ->
  triadEffortPlot Set3 data = Ok p -> b < 3 -> click p b v = Some v' ->
  if Nat.eqb b 0 then Forall (within (vw_range v')) c else ~ Forall (within (vw_range v')) c.
Proof.
  intros Ed Pos Nn E Hb Ek. pose proof (PropsPlot.C57_effort_curve _ _ _ _ Ed Pos Nn) as (_ & _ & In01 & (c' & a & Ec & Ha & Ha')).
  destruct (C85_click _ _ b v E Hb) as (v2 & E2 & _ & Er). rewrite Ek in E2. injection E2 as <-. rewrite Er. destruct b as [|b]; cbn [Nat.eqb].
  - eapply Forall_impl; [|exact In01]. intros x H. exact H.
  - intros F. rewrite Ec in F. apply Forall_app in F as [_ F]. inversion F as [|? ? H _]; subst. unfold within in H. cbn [fst snd] in H. lra.
Qed.
Definition ex_curves : list curve :=
  [mkCurve "ar-osx" [(1#2, 1#3); (1, 1)]%Q; mkCurve "ar-lulua" [(1, 1)]%Q; mkCurve "null" [(1#5, 1#9); (1, 1)]%Q].
Example C85_example : exists p, triadEffortPlot Set3 ex_curves = Ok p /\
  map (fun kl => (fst kl, ln_color (snd kl))) (pl_lines p) = [("ar-osx", "#8dd3c7"); ("ar-lulua", "#ffffb3"); ("null", "#bebada")] /\
  option_map vw_shown (click p 1 (initial p)) = Some [("ar-osx", true); ("ar-lulua", false); ("null", false)].
Proof. eexists. split; [reflexivity|]. split; reflexivity. Qed.
Example C85_example_fails : triadEffortPlot Set3 (ex_curves ++ ex_curves) = Raise AssertionError /\ triadEffortPlot Set3 (firstn 2 ex_curves) = Raise KeyError.
Proof. split; reflexivity. Qed.

(** * C86: characters of a file *)
(** [rest fd] are the characters still to be read and the exception at their end; [read]
    returns some of them, nothing only if there are none left, and raises only there. *)
Definition faithful {F} (read : F -> nat -> res (text * F)) (rest : F -> gen N) : Prop :=
  forall fd n, 0 < n -> match read fd n with
  | Ok ([], _) => rest fd = ([], None)
  | Ok (c, fd') => rest fd = (c ++ fst (rest fd'), snd (rest fd'))
  | Raise e => rest fd = ([], Some e)
  end.
(** However the file is split by reading, the characters are those of the file, in order,
    followed by its exception. *)
Theorem C86_characters {F} (read : F -> nat -> res (text * F)) rest batchsize fd fuel : faithful read rest -> 0 < batchsize ->
  List.length (fst (rest fd)) < fuel -> iterchar read batchsize fuel fd = rest fd.
Proof.
  intros Hr Hb. revert fd. induction fuel as [|fuel IH]; intros fd Hf; [lia|]. cbn [iterchar]. specialize (Hr fd batchsize Hb).
  destruct (read fd batchsize) as [[c fd']|e]; [|symmetry; exact Hr]. destruct c as [|c cs]; [symmetry; exact Hr|].
  rewrite IH; [rewrite Hr; destruct (rest fd'); reflexivity|]. rewrite Hr in Hf. cbn [fst app List.length] in Hf. rewrite app_length in Hf. lia.
Qed.
(** A file in memory, and one giving at most three characters at once before failing *)
Definition read_string (s : text) (n : nat) : res (text * text) := Ok (firstn n s, skipn n s).
Definition read_slow (s : text) (n : nat) : res (text * text) := match s with [] => Raise ValueError | _ => Ok (firstn (min n 3) s, skipn (min n 3) s) end.
Lemma C86_string : faithful read_string (fun s => (s, None)).
Proof.
  intros s n Hn. cbn [read_string]. destruct s as [|c s]; [rewrite firstn_nil; reflexivity|]. destruct n as [|n]; [lia|]. cbn [firstn skipn fst snd app].
  rewrite firstn_skipn. reflexivity.
Qed.
Lemma C86_slow : faithful read_slow (fun s => (s, Some ValueError)).
Proof.
  intros s n Hn. unfold read_slow. destruct s as [|c s]; [reflexivity|]. destruct (min n 3) as [|m] eqn:E; [lia|]. cbn [firstn skipn fst snd app].
  rewrite firstn_skipn. reflexivity.
Qed.
Example C86_example : iterchar read_slow 100 8 [1; 2; 3; 4; 5; 6; 7]%N = ([1; 2; 3; 4; 5; 6; 7]%N, Some ValueError) /\
  iterchar read_string 2 6 [1; 2; 3; 4; 5]%N = ([1; 2; 3; 4; 5]%N, None).
Proof. split; reflexivity. Qed.

Print Assumptions C85_concatenated.
Print Assumptions C85_cut.
Print Assumptions C85_works.
Print Assumptions C85_fails.
Print Assumptions C85_lines.
Print Assumptions C85_click.
Print Assumptions C85_all.
Print Assumptions C85_report.
Print Assumptions C85_report_plot.
Print Assumptions C85_report_full.
Print Assumptions C85_range.
Print Assumptions C86_characters.
