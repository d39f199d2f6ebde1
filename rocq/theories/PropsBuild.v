(** C94, C95: building the report. *)
From Verif Require Import Base CurveModel BuildModel BuildProofs BuildGen.
From Coq Require Import Lia Permutation.
Open Scope string_scope.
Open Scope list_scope.
Unset Implicit Arguments.

(** * C94: whatever ninja runs in parallel, the report is the same *)
Theorem C94_once : forall corpora winkbd fd, ok_inputs corpora winkbd fd -> NoDup (flat_map outs (gen_sh corpora winkbd fd)).
Proof. exact gen_once. Qed.
Theorem C94_build : forall V corpora winkbd fd (run : stmt -> list (option V) -> string -> V) (f : string -> option V),
  ok_inputs corpora winkbd fd ->
  exists F, consistent (gen_sh corpora winkbd fd) (gen_reads corpora winkbd fd) run f F /\
    (forall F', consistent (gen_sh corpora winkbd fd) (gen_reads corpora winkbd fd) run f F' -> forall p, F' p = F p) /\
    forall c, reach (gen_sh corpora winkbd fd) (gen_reads corpora winkbd fd) run pooled (nfirst f) c ->
      (forall p, ~ built (gen_sh corpora winkbd fd) p -> fs c p = F p) /\
      (forall i s p, In i (finished c) -> nth_error (gen_sh corpora winkbd fd) i = Some s -> In p (outs s) -> fs c p = F p) /\
      (complete (gen_sh corpora winkbd fd) c -> forall p, fs c p = F p).
Proof.
  intros V corpora winkbd fd run f O. pose proof (gen_once _ _ _ O) as H1. pose proof (gen_ranked _ _ _ O) as H2. pose proof (gen_declared _ _ _ O) as H3.
  set (g := gen_sh corpora winkbd fd) in *. set (rds := gen_reads corpora winkbd fd) in *. clearbody g rds.
  pose proof (result_consistent g rds run pooled rank H1 H2 H3 f) as C. exists (result g rds run rank f). split; [exact C|]. split.
  - intros F' C' p. exact (consistent_unique g rds run pooled rank H1 H2 H3 f _ _ C' C p).
  - intros c R. destruct (run_result g rds run pooled H1 H3 f _ c C R) as [A B]. split; [|split].
    + intros p N. rewrite (A p N). symmetry. apply (proj1 C p N).
    + exact B.
    + intros K p. exact (complete_files g rds run pooled H1 H3 f _ c C R K p).
Qed.
(** Nothing gets stuck, and every build ends. *)
Theorem C94_ends : forall V corpora winkbd fd (run : stmt -> list (option V) -> string -> V) (f : string -> option V),
  ok_inputs corpora winkbd fd ->
  (forall n c, reach_n (gen_sh corpora winkbd fd) (gen_reads corpora winkbd fd) run pooled (nfirst f) n c -> n <= 3 * List.length (gen_sh corpora winkbd fd)) /\
  forall c, reach (gen_sh corpora winkbd fd) (gen_reads corpora winkbd fd) run pooled (nfirst f) c ->
    ((exists c', nstep (gen_sh corpora winkbd fd) (gen_reads corpora winkbd fd) run pooled c c') \/ complete (gen_sh corpora winkbd fd) c) /\
    exists c', reach (gen_sh corpora winkbd fd) (gen_reads corpora winkbd fd) run pooled c c' /\ complete (gen_sh corpora winkbd fd) c'.
Proof.
  intros V corpora winkbd fd run f O. pose proof (gen_once _ _ _ O) as H1. pose proof (gen_ranked _ _ _ O) as H2. pose proof (gen_declared _ _ _ O) as H3.
  set (g := gen_sh corpora winkbd fd) in *. set (rds := gen_reads corpora winkbd fd) in *. clearbody g rds. split.
  - intros n c R. exact (reach_n_bound g rds run pooled rank H1 H2 H3 f n c R).
  - intros c R. split; [exact (run_progress g rds run pooled rank H1 H2 H3 f c R)|exact (completes g rds run pooled rank H1 H2 H3 f c R)].
Qed.
(** lulua-write is not run more than once concurrently. *)
Theorem C94_pool : forall V corpora winkbd fd (run : stmt -> list (option V) -> string -> V) (f : string -> option V) c i j s t,
  reach (gen_sh corpora winkbd fd) (gen_reads corpora winkbd fd) run pooled (nfirst f) c ->
  In i (map fst (running c)) -> In j (map fst (running c)) ->
  nth_error (gen_sh corpora winkbd fd) i = Some s -> nth_error (gen_sh corpora winkbd fd) j = Some t ->
  (exists a, rule s = ("write-" ++ a)%string) -> (exists b, rule t = ("write-" ++ b)%string) -> i = j.
Proof.
  intros V corpora winkbd fd run f c i j s t R Ii Ij Hi Hj (a & Ea) (b & Eb). revert Ii Ij Hi Hj. set (g := gen_sh corpora winkbd fd) in *. clearbody g.
  intros Ii Ij Hi Hj. refine (pool_once g (gen_reads corpora winkbd fd) run pooled f c R i j s t Ii Ij Hi Hj _ _); unfold pooled; [rewrite Ea|rewrite Eb]; apply prefix_app.
Qed.

(** ** Statistics are read with the layout they have been typed with *)
Inductive typed_with (g : list stmt) (l : string) : string -> Prop :=
  | tw_write s p : In s g -> In p (outs s) -> pooled s = true -> layout_of s = Some l -> typed_with g l p
  | tw_combine s p : In s g -> In p (outs s) -> rule s = "combine" -> ins s <> [] -> (forall q, In q (ins s) -> typed_with g l q) -> typed_with g l p.
Lemma in_layouts corpora winkbd fd l s : In l gen_layouts -> In s (layout_stmts fd l) -> In s (gen_sh corpora winkbd fd).
Proof. intros Il Is. unfold gen_sh. rewrite !in_app_iff. do 3 right. left. apply in_flat_map. eauto. Qed.
Lemma typed_pickle corpora winkbd fd l c : In l gen_layouts -> In c all_corpora -> typed_with (gen_sh corpora winkbd fd) l (pickle l c).
Proof.
  intros Il Ic.
  assert (W : exists r fs, In (c, (r, fs)) (corpus_rules fd)).
  { unfold all_corpora in Ic. cbn [In] in Ic. repeat (destruct Ic as [<-|Ic]; [do 2 eexists; unfold corpus_rules; cbn [In]; tauto|]). destruct Ic. }
  destruct W as (r & fs & W). apply (tw_write _ l (write_stmt l (c, (r, fs)))).
  - apply (in_layouts corpora winkbd fd l); [exact Il|]. right. apply in_app_iff. left. apply in_map, W.
  - left. reflexivity.
  - unfold corpus_rules in W. cbn [In] in W. repeat (destruct W as [W|W]; [injection W as _ <- _; reflexivity|]). destruct W.
  - unfold corpus_rules in W. cbn [In] in W. repeat (destruct W as [W|W]; [injection W as _ <- _; reflexivity|]). destruct W.
Qed.
Lemma typed_all corpora winkbd fd l : In l gen_layouts -> typed_with (gen_sh corpora winkbd fd) l (pickle l "all").
Proof.
  intros Il. apply (tw_combine _ l (after (statsdir ("/" ++ l)) (pickle l "all") "combine" (map (pickle l) all_corpora))).
  - apply (in_layouts corpora winkbd fd l); [exact Il|]. right. apply in_app_iff. right. left. reflexivity.
  - left. reflexivity.
  - reflexivity.
  - discriminate.
  - intros q Iq. cbn [ins after] in Iq. apply in_map_iff in Iq as (c & <- & Ic). apply typed_pickle; assumption.
Qed.
Definition is_stats (p : string) : bool := prefixed "_build/_stats/" p.
Theorem C94_typed : forall corpora winkbd fd s l p, ok_inputs corpora winkbd fd ->
  In s (gen_sh corpora winkbd fd) -> layout_of s = Some l -> In p (gen_reads corpora winkbd fd s) -> is_stats p = true ->
  typed_with (gen_sh corpora winkbd fd) l p /\ forall l', typed_with (gen_sh corpora winkbd fd) l' p -> l' = l.
Proof.
  intros corpora winkbd fd s l p O Is Hl Ip Hp.
  assert (T : typed_with (gen_sh corpora winkbd fd) l p).
  { assert (Ip' : In p (ins s)).
    { destruct (gen_reads_cases corpora winkbd fd s p O Is Ip) as [K|[(l' & _ & U & _)|K]].
      - apply in_app_iff in K as [K|K]; [exact K|]. exfalso. clear Ip. unfold gen_sh in Is. rewrite !in_app_iff in Is. destruct Is as [Is|[Is|[Is|[Is|[Is|[Is|Is]]]]]].
        + unfold fixed_stmts in Is. cbn [In] in Is. repeat (destruct Is as [<-|Is]; [destruct K|]). destruct Is.
        + apply in_map_iff in Is as (f & <- & _). destruct K.
        + unfold driver_stmts in Is. apply in_app_iff in Is as [Is|Is]; [|apply in_app_iff in Is as [Is|Is]].
          * destruct Is as [<-|[<-|[<-|[]]]]; [destruct K|destruct K|discriminate Hl].
          * apply in_map_iff in Is as (f & <- & _). destruct K.
          * destruct Is as [<-|[]]. discriminate Hl.
        + apply in_flat_map in Is as (l' & _ & Is). destruct Is as [<-|Is]; [destruct K|]. apply in_app_iff in Is as [Is|Is].
          * apply in_map_iff in Is as (cr & <- & _). destruct K.
          * cbn [In] in Is. repeat (destruct Is as [<-|Is]; [destruct K|]). destruct Is.
        + apply in_map_iff in Is as (l' & <- & _). destruct K.
        + apply in_map_iff in Is as (c & <- & _). destruct K.
        + destruct Is as [<-|[<-|[<-|[]]]]; [destruct K|destruct K|discriminate Hl].
      - exfalso. destruct U as [->|[U| -> ]]; [discriminate Hp| |discriminate Hp]. unfold hidden_files in U. cbn [In] in U. repeat (destruct U as [<-|U]; [discriminate Hp|]). exact U.
      - exfalso. unfold layout_of in Hl. rewrite K in Hl. discriminate Hl. }
    clear Ip. unfold gen_sh in Is. rewrite !in_app_iff in Is. destruct Is as [Is|[Is|[Is|[Is|[Is|[Is|Is]]]]]].
    - assert (Lu : In "ar-lulua" gen_layouts) by (left; reflexivity).
      unfold fixed_stmts in Is. cbn [In] in Is.
      repeat (destruct Is as [<-|Is]; [first [solve [destruct Ip']|discriminate Hl|injection Hl as <-; destruct Ip' as [<-|[]]; exact (typed_all corpora winkbd fd "ar-lulua" Lu)]|]). destruct Is.
    - apply in_map_iff in Is as (f & <- & _). discriminate Hl.
    - unfold driver_stmts in Is. apply in_app_iff in Is as [Is|Is]; [|apply in_app_iff in Is as [Is|Is]].
      + destruct Is as [<-|[<-|[<-|[]]]]; destruct Ip'.
      + apply in_map_iff in Is as (f & <- & _). discriminate Hl.
      + destruct Is as [<-|[]]. discriminate Hl.
    - apply in_flat_map in Is as (l' & Il' & Is). destruct Is as [<-|Is]; [destruct Ip'|]. apply in_app_iff in Is as [Is|Is].
      + exfalso. apply in_map_iff in Is as ((c & r & fs) & <- & I). destruct (ok_found _ _ _ O c r fs I) as [_ C]. apply C in Ip'.
        apply corpus_outlike in Ip'. unfold is_stats in Hp. revert Ip' Hp. clear. unfold outlike, prefixed. destruct p as [|a p]; [intros _ E; discriminate E|].
        cbn [String.prefix]. destruct (Ascii.ascii_dec "_" a) as [<-|]; [|intros _ E; discriminate E]. intros E.
        apply orb_false_iff in E as [E _]. apply orb_false_iff in E as [E _].
        change ("_build/_stats/") with ("_" ++ "build/" ++ "_stats/")%string. change (prefix "build/" p = false) in E.
        change (prefix ("build/" ++ "_stats/")%string p = true -> False). revert E. generalize "build/". intros x. revert p.
        induction x as [|y x IH]; intros p E; [destruct p; discriminate E|]. destruct p as [|z p]; [intros K; discriminate K|].
        cbn [String.append String.prefix] in *. destruct (Ascii.ascii_dec y z); [apply IH, E|intros K; discriminate K].
      + cbn [In] in Is.
        repeat (destruct Is as [<-|Is]; [first [solve [destruct Ip']|discriminate Hl|injection Hl as <-; first [solve [destruct Ip']|destruct Ip' as [<-|[]]; first [discriminate Hp|exact (typed_all corpora winkbd fd l' Il')]]]|]). destruct Is.
    - apply in_map_iff in Is as (l' & <- & _). destruct Ip'.
    - apply in_map_iff in Is as (c & <- & Ic). injection Hl as <-. destruct Ip' as [<-|[<-|[]]]; [|discriminate Hp].
      apply typed_pickle; [left; reflexivity|]. apply (ok_known _ _ _ O), Ic.
    - destruct Is as [<-|[<-|[<-|[]]]]; [|destruct Ip'|destruct Ip']. exfalso. cbn [ins after] in Ip'. apply in_map_iff in Ip' as (l' & <- & _). discriminate Hp. }
  split; [exact T|]. clear - T O. pose proof (gen_once _ _ _ O) as N. clear O. set (g := gen_sh corpora winkbd fd) in *. clearbody g.
  induction T as [s p Is Op Hp Hl|s p Is Op Hr Hn Hq IH].
  - intros l' T'. destruct T' as [s' p Is' Op' Hp' Hl'|s' p Is' Op' Hr' Hn' Hq'].
    + rewrite (one_stmt_In g N s s' p Is Is' Op Op') in Hl. congruence.
    + rewrite (one_stmt_In g N s s' p Is Is' Op Op') in Hp. unfold pooled in Hp. rewrite Hr' in Hp. discriminate Hp.
  - intros l' T'. destruct T' as [s' p Is' Op' Hp' Hl'|s' p Is' Op' Hr' Hn' Hq'].
    + rewrite <- (one_stmt_In g N s s' p Is Is' Op Op') in Hp'. unfold pooled in Hp'. rewrite Hr in Hp'. discriminate Hp'.
    + destruct (ins s) as [|q qs] eqn:E; [destruct (Hn eq_refl)|]. apply (IH q (or_introl eq_refl)).
      apply Hq'. rewrite <- (one_stmt_In g N s s' p Is Is' Op Op'), E. left. reflexivity.
Qed.

(** Statistics of a layout are complete: all texts typed with it, each one once. *)
Theorem C94_combined : forall corpora winkbd fd l, ok_inputs corpora winkbd fd -> In l gen_layouts ->
  exists s, In s (gen_sh corpora winkbd fd) /\ outs s = [pickle l "all"] /\ rule s = "combine" /\ NoDup (ins s) /\
    forall p, In p (ins s) <-> exists t, In t (gen_sh corpora winkbd fd) /\ pooled t = true /\ layout_of t = Some l /\ In p (outs t).
Proof.
  intros corpora winkbd fd l O Il. exists (after (statsdir ("/" ++ l)) (pickle l "all") "combine" (map (pickle l) all_corpora)).
  split; [apply (in_layouts corpora winkbd fd l); [exact Il|]; right; apply in_app_iff; right; left; reflexivity|].
  split; [reflexivity|]. split; [reflexivity|]. split.
  - cbn [ins after]. apply FinFun.Injective_map_NoDup.
    + intros a b E. unfold pickle, statsdir in E. apply append_inj, append_inj, append_inj, append_inj in E. exact (append_inj_r _ _ _ E).
    + apply nodupb_NoDup. reflexivity.
  - intros p. cbn [ins after]. split.
    + intros Ip. apply in_map_iff in Ip as (c & <- & Ic).
      assert (W : exists r fs, In (c, (r, fs)) (corpus_rules fd)).
      { unfold all_corpora in Ic. cbn [In] in Ic. repeat (destruct Ic as [<-|Ic]; [do 2 eexists; unfold corpus_rules; cbn [In]; tauto|]). destruct Ic. }
      destruct W as (r & fs & W). exists (write_stmt l (c, (r, fs))). split.
      * apply (in_layouts corpora winkbd fd l); [exact Il|]. right. apply in_app_iff. left. apply in_map, W.
      * unfold corpus_rules in W. cbn [In] in W. repeat (destruct W as [W|W]; [injection W as <- <- _; cbn; auto|]). destruct W.
    + intros (t & It & Hp & Hl & Op). unfold gen_sh in It. rewrite !in_app_iff in It. destruct It as [It|[It|[It|[It|[It|[It|It]]]]]].
      * exfalso. unfold fixed_stmts in It. cbn [In] in It. repeat (destruct It as [<-|It]; [discriminate Hp|]). destruct It.
      * apply in_map_iff in It as (f & <- & _). discriminate Hp.
      * exfalso. unfold driver_stmts in It. apply in_app_iff in It as [It|It]; [|apply in_app_iff in It as [It|It]].
        -- destruct It as [<-|[<-|[<-|[]]]]; discriminate Hp.
        -- apply in_map_iff in It as (f & <- & _). discriminate Hp.
        -- destruct It as [<-|[]]. discriminate Hp.
      * apply in_flat_map in It as (l' & _ & It). destruct It as [<-|It]; [discriminate Hp|]. apply in_app_iff in It as [It|It].
        -- apply in_map_iff in It as ((c & r & fs) & <- & I). destruct Op as [<-|[]]. unfold corpus_rules in I. cbn [In] in I. cbn [fst].
           repeat (destruct I as [I|I]; [injection I as <- <- _; injection Hl as ->; apply in_map; cbn [In all_corpora]; tauto|]). destruct I.
        -- exfalso. cbn [In] in It. repeat (destruct It as [<-|It]; [discriminate Hp|]). destruct It.
      * apply in_map_iff in It as (l' & <- & _). discriminate Hp.
      * apply in_map_iff in It as (c & <- & _). discriminate Hp.
      * destruct It as [<-|[<-|[<-|[]]]]; discriminate Hp.
Qed.
(** Nothing made with one layout is read with another one, except by the plot comparing them. *)
Definition layouts0 : list (string * list string) := flat_map (fun s => match layout_of s with Some l => [(l, outs s)] | None => [] end) g0.
Lemma check_own : forallb (fun s => match layout_of s with
  | Some l => String.eqb (rule s) "analyze-triadeffortplot" || forallb (fun p => forallb (fun t => String.eqb (fst t) l || negb (mem p (snd t))) layouts0) (ins s)
  | None => true end) g0 = true.
Proof. vm_compute. reflexivity. Qed.
Theorem C94_own_layout : forall corpora winkbd fd s t l l' p, ok_inputs corpora winkbd fd ->
  In s (gen_sh corpora winkbd fd) -> In t (gen_sh corpora winkbd fd) -> layout_of s = Some l -> layout_of t = Some l' ->
  In p (outs t) -> In p (ins s) -> rule s <> "analyze-triadeffortplot" -> l' = l.
Proof.
  intros corpora winkbd fd s t l l' p O Is It Hl Hl' Op Ip Hr.
  destruct (like_gen _ _ _ s O Is) as [(f & _ & ->)|(s0 & Is0 & Ls)]; [discriminate Hl|].
  destruct (like_gen _ _ _ t O It) as [(f & _ & ->)|(t0 & It0 & Lt)]; [discriminate Hl'|].
  rewrite (l_layout _ _ _ Ls) in Hl. rewrite (l_layout _ _ _ Lt) in Hl'.
  destruct (l_ins _ _ _ Ls p Ip) as [K|K].
  - pose proof (proj1 (forallb_forall _ _) check_own s0 Is0) as C. cbv beta in C. rewrite Hl in C. apply orb_true_iff in C as [C|C].
    + apply String.eqb_eq in C. rewrite <- (l_rule _ _ _ Ls) in C. contradiction.
    + pose proof (proj1 (forallb_forall _ _) C p K) as C1. cbv beta in C1. pose proof (proj1 (forallb_forall _ _) C1 (l', outs t0)) as C2. cbn [fst snd] in C2.
      rewrite (l_outs _ _ _ Lt) in Op. rewrite (proj2 (mem_In _ _) Op), orb_false_r in C2. apply String.eqb_eq, C2.
      unfold layouts0. apply in_flat_map. exists t0. rewrite Hl'. split; [exact It0|left; reflexivity].
  - exfalso. apply corpus_outlike in K. rewrite (outlike_ok corpora winkbd fd p) in K; [discriminate K|apply O|exists t; auto].
Qed.

(** ** Building again *)
(** ninja runs statements with inputs that changed or have been made again; phony statements
    without inputs are never up to date.  Order-only dependencies and files that are read
    without being declared are not looked at. *)
Record runs_again (g : list stmt) (changed : string -> bool) (d : stmt -> bool) : Prop := mkAgain {
  ra_source : forall s p, In s g -> In p (ins s ++ imps s) -> ~ built g p -> changed p = true -> d s = true;
  ra_output : forall s p t, In s g -> In p (ins s ++ imps s) -> In t g -> In p (outs t) -> d t = true -> d s = true;
  ra_phony : forall s, In s g -> rule s = "phony" -> d s = true }.
(** Files read without being declared *)
Definition hidden (p : string) : Prop := (exists l, p = layout_file l) \/ In p hidden_files.
Theorem C94_again : forall V corpora winkbd fd (run : stmt -> list (option V) -> string -> V) f f' F F' h changed d c,
  ok_inputs corpora winkbd fd ->
  consistent (gen_sh corpora winkbd fd) (gen_reads corpora winkbd fd) run f F ->
  consistent (gen_sh corpora winkbd fd) (gen_reads corpora winkbd fd) run f' F' ->
  (forall p, changed p = false -> f' p = f p) -> runs_again (gen_sh corpora winkbd fd) changed d ->
  (forall p, hidden p -> changed p = false) -> (forall s, In s (gen_sh corpora winkbd fd) -> In osmconvert (outs s) -> d s = false) ->
  (forall p, built (gen_sh corpora winkbd fd) p -> h p = F p) -> (forall p, ~ built (gen_sh corpora winkbd fd) p -> h p = f' p) ->
  reach (filter d (gen_sh corpora winkbd fd)) (gen_reads corpora winkbd fd) run pooled (nfirst h) c -> complete (filter d (gen_sh corpora winkbd fd)) c ->
  forall p, fs c p = F' p.
Proof.
  intros V corpora winkbd fd run f f' F F' h changed d c O C C' Hch [R1 R2 R3] Hhid Hosm Hb Hs R K p.
  pose proof (gen_once _ _ _ O) as H1. pose proof (gen_ranked _ _ _ O) as H2. pose proof (gen_declared _ _ _ O) as H3.
  assert (Rest : forall s q, In s (gen_sh corpora winkbd fd) -> d s = false -> In q (gen_reads corpora winkbd fd s) -> ~ In q (ins s ++ imps s) ->
    (~ built (gen_sh corpora winkbd fd) q /\ f' q = f q) \/ exists t, In t (gen_sh corpora winkbd fd) /\ In q (outs t) /\ d t = false).
  { intros s q Is Ds Iq Nq.
    assert (Hid : forall q, hidden q -> ~ built (gen_sh corpora winkbd fd) q /\ f' q = f q).
    { intros x Hx. split; [|apply Hch, Hhid, Hx]. intros B. apply outlike_ok in B; [|apply O]. destruct Hx as [(l & ->)|Hx]; [discriminate B|].
      unfold hidden_files in Hx. cbn [In] in Hx. repeat (destruct Hx as [<-|Hx]; [discriminate B|]). exact Hx. }
    destruct (gen_reads_cases corpora winkbd fd s q O Is Iq) as [Q|[(l & _ & U & _)|Q]].
    - contradiction.
    - destruct U as [->|[U| -> ]]; [left; apply Hid; left; eauto|left; apply Hid; right; exact U|].
      right. set (t := mkStmt [osmconvert] "configure-make" ["3rdparty/osmctools"] [] [] []).
      assert (It : In t (gen_sh corpora winkbd fd)) by (unfold gen_sh; apply in_app_iff; left; unfold fixed_stmts; cbn [In]; do 10 right; left; reflexivity).
      exists t. split; [exact It|]. split; [left; reflexivity|]. apply Hosm; [exact It|left; reflexivity].
    - exfalso. assert (D : d s = true); [|congruence]. rewrite (gen_report corpora winkbd fd s Is Q) in Is |- *. cbn [nth report_stmts] in Is |- *.
      set (t := mkStmt ["always"] "phony" [] [] [] []).
      assert (It : In t (gen_sh corpora winkbd fd)) by (unfold gen_sh; rewrite !in_app_iff; do 6 right; right; left; reflexivity).
      apply (R2 _ "always" t Is); [left; reflexivity|exact It|left; reflexivity|]. apply R3; [exact It|reflexivity]. }
  set (g := gen_sh corpora winkbd fd) in *. set (rds := gen_reads corpora winkbd fd) in *. clearbody g rds.
  refine (complete_files (filter d g) rds run pooled (once_filter d g H1) _ h F' c _ R K p).
  - intros s q Is Iq B. apply filter_In in Is as [Is _]. apply H3; [exact Is|exact Iq|]. exact (built_filter d g q B).
  - apply (consistent_filter g rds run f' F' d h C' Hs). intros s q Is Ds Os. rewrite (Hb q) by (exists s; auto).
    rewrite (consistent_unique g rds run pooled rank H1 H2 H3 f _ _ C (result_consistent g rds run pooled rank H1 H2 H3 f) q).
    rewrite (consistent_unique g rds run pooled rank H1 H2 H3 f' _ _ C' (result_consistent g rds run pooled rank H1 H2 H3 f') q).
    symmetry. refine (clean_same g rds run pooled rank H1 H2 H3 d f f' _ _ Rest s q Is Ds Os).
    + intros u x Iu Du Ix Nx. apply Hch. destruct (changed x) eqn:E; [|reflexivity]. exfalso. rewrite (R1 u x Iu Ix Nx E) in Du. discriminate Du.
    + intros u x t Iu Du Ix It Ot. destruct (d t) eqn:E; [|reflexivity]. exfalso. rewrite (R2 u x t Iu Ix It Ot E) in Du. discriminate Du.
Qed.

(** ** Examples *)
Definition ex_found : found :=
  mkFound ["corpus/bbcarabic/a.tar.br"; "corpus/bbcarabic/b.tar.br"] ["corpus/aljazeera/a.tar.br"] ["corpus/un-v1.0-tei/a.tar.br"] ["corpus/opensubtitles-2018/a.tar.br"] ["corpus/hindawi/a.epub"].
Definition ex_g : list stmt := gen_sh all_corpora winkbd_wanted ex_found.
Definition ex_reads : stmt -> list string := gen_reads all_corpora winkbd_wanted ex_found.
(** The directories of the repository *)
Example C94_example : ok_inputs all_corpora winkbd_wanted ex_found.
Proof.
  constructor.
  - apply nodupb_NoDup. reflexivity.
  - apply incl_refl.
  - apply nodupb_NoDup. reflexivity.
  - apply incl_refl.
  - intros f If Im. unfold winkbd_wanted in If. unfold winkbd_made in Im. cbn [In] in If, Im.
    repeat (destruct If as [<-|If]; [repeat (destruct Im as [Im|Im]; [discriminate Im|]); exact Im|]). exact If.
  - intros c r fs I. unfold corpus_rules in I. cbn [In ex_found bbcarabic aljazeera un opensubtitles hindawi] in I.
    repeat (destruct I as [I|I]; [injection I as <- <- <-; split; [intros E; discriminate E|]; intros p Ip; repeat (destruct Ip as [<-|Ip]; [reflexivity|]); destruct Ip|]). destruct I.
Qed.
(** Some directory without a corpus this script knows: an input nobody makes *)
Theorem C94_needs_known : exists corpora s p, NoDup corpora /\ In s (gen_sh corpora winkbd_wanted ex_found) /\ In p (ins s) /\ is_stats p = true /\
  ~ built (gen_sh corpora winkbd_wanted ex_found) p.
Proof.
  exists ["news"], (corpus_stmt "news"), (pickle "ar-lulua" "news"). split; [apply nodupb_NoDup; reflexivity|].
  split; [unfold gen_sh; rewrite !in_app_iff; do 5 right; left; left; reflexivity|]. split; [left; reflexivity|]. split; [reflexivity|].
  rewrite built_outs. apply mem_nIn. vm_compute. reflexivity.
Qed.
(** No files found: the command lists the working directory, and reads what others are writing. *)
Theorem C94_needs_found : exists fd s p, In s (gen_sh all_corpora winkbd_wanted fd) /\ In p (gen_reads all_corpora winkbd_wanted fd s) /\
  built (gen_sh all_corpora winkbd_wanted fd) p /\ ~ In p (needs s).
Proof.
  exists fd0, (write_stmt "ar-lulua" ("bbcarabic", ("write-bbcarabic", []))), (reportdir "/index.html").
  split; [apply (in_layouts _ _ _ "ar-lulua"); [left; reflexivity|right; left; reflexivity]|]. split; [|split].
  - unfold gen_reads, reads. cbn [rule write_stmt fst snd ins]. apply in_app_iff. right. change (mem "write-bbcarabic" find_rules) with true. cbv iota.
    apply outs_gen_In. right. right. unfold outs_rest. rewrite !in_app_iff. do 4 right. right. right. left. reflexivity.
  - apply built_outs, outs_gen_In. right. right. unfold outs_rest. rewrite !in_app_iff. do 4 right. right. right. left. reflexivity.
  - intros [E|[]]. discriminate E.
Qed.
(** Values that tell whether something changed *)
Definition any_true (s : stmt) (vs : list (option bool)) (p : string) : bool := existsb (fun v => match v with Some true => true | _ => false end) vs.
Definition ex_sources (q : string) : string -> option bool := fun p => Some (String.eqb p q).
Lemma all_false g rds : consistent g rds any_true (fun _ => Some false) (fun _ => Some false).
Proof.
  split; [reflexivity|]. intros s p _ _. f_equal. unfold any_true. induction (rds s) as [|x l IH]; [reflexivity|exact IH].
Qed.
Lemma check_stale q d : outlike q = false ->
  forallb (fun s => d s || forallb (fun p => negb (String.eqb p q) && negb (mem p (flat_map outs (filter d ex_g)))) (ins s ++ imps s)) ex_g = true ->
  (forall s, In s ex_g -> rule s = "phony" -> d s = true) ->
  runs_again ex_g (fun p => String.eqb p q) d.
Proof.
  intros Nq C P. constructor; [| |exact P].
  - intros s p Is Ip _ E. pose proof (proj1 (forallb_forall _ _) C s Is) as K. cbv beta in K. destruct (d s); [reflexivity|]. cbn [orb] in K.
    pose proof (proj1 (forallb_forall _ _) K p Ip) as K'. cbv beta in K'. rewrite E in K'. discriminate K'.
  - intros s p t Is Ip It Ot D. pose proof (proj1 (forallb_forall _ _) C s Is) as K. cbv beta in K. destruct (d s); [reflexivity|]. cbn [orb] in K.
    pose proof (proj1 (forallb_forall _ _) K p Ip) as K'. cbv beta in K'. apply andb_true_iff in K' as [_ K'].
    exfalso. assert (M : mem p (flat_map outs (filter d ex_g)) = true) by (apply mem_In, in_flat_map; exists t; split; [apply filter_In; auto|exact Ot]).
    rewrite M in K'. discriminate K'.
Qed.
Lemma stale q d p0 : outlike q = false -> ~ built (filter d ex_g) p0 -> String.eqb p0 q = false ->
  (forall F', consistent ex_g ex_reads any_true (ex_sources q) F' -> F' p0 = Some true) ->
  exists (f f' F F' h : string -> option bool) c,
    consistent ex_g ex_reads any_true f F /\ consistent ex_g ex_reads any_true f' F' /\ (forall p, String.eqb p q = false -> f' p = f p) /\
    (forall p, built ex_g p -> h p = F p) /\ (forall p, ~ built ex_g p -> h p = f' p) /\
    reach (filter d ex_g) ex_reads any_true pooled (nfirst h) c /\ complete (filter d ex_g) c /\ fs c p0 <> F' p0.
Proof.
  intros Nq Np Ne HF. pose proof (gen_once _ _ _ C94_example) as H1. pose proof (gen_ranked _ _ _ C94_example) as H2. pose proof (gen_declared _ _ _ C94_example) as H3.
  assert (Bq : forall p, built ex_g p -> String.eqb p q = false).
  { intros p B. destruct (String.eqb p q) eqn:E; [|reflexivity]. exfalso. apply String.eqb_eq in E. subst p.
    apply (outlike_ok all_corpora winkbd_wanted ex_found) in B; [|apply incl_refl]. congruence. }
  change (gen_sh all_corpora winkbd_wanted ex_found) with ex_g in *. change (gen_reads all_corpora winkbd_wanted ex_found) with ex_reads in *.
  set (g := ex_g) in *. set (rds := ex_reads) in *. clearbody g rds.
  pose proof (result_consistent g rds any_true pooled rank H1 H2 H3 (ex_sources q)) as C'.
  assert (D2 : forall s p t, In s (filter d g) -> In p (needs s) -> In t (filter d g) -> In p (outs t) -> rank t < rank s).
  { intros s p t Is Ip It Ot. apply filter_In in Is as [Is _], It as [It _]. eapply H2; eassumption. }
  assert (D3 : forall s p, In s (filter d g) -> In p (rds s) -> built (filter d g) p -> In p (needs s)).
  { intros s p Is Ip B. apply filter_In in Is as [Is _]. apply H3; [exact Is|exact Ip|exact (built_filter d g p B)]. }
  destruct (completes (filter d g) rds any_true pooled rank (once_filter d g H1) D2 D3 (ex_sources q) _ (r_refl _ _ _ _ _)) as (c & R & K).
  exists (fun _ => Some false), (ex_sources q), (fun _ => Some false), (result g rds any_true rank (ex_sources q)), (ex_sources q), c.
  split; [apply all_false|]. split; [exact C'|]. split; [intros p E; unfold ex_sources; rewrite E; reflexivity|].
  split; [intros p B; unfold ex_sources; rewrite (Bq p B); reflexivity|]. split; [reflexivity|]. split; [exact R|]. split; [exact K|].
  rewrite (HF _ C').
  destruct (run_result (filter d g) rds any_true pooled (once_filter d g H1) D3 (ex_sources q) _ c
    (result_consistent (filter d g) rds any_true pooled rank (once_filter d g H1) D2 D3 (ex_sources q)) R) as [A _].
  rewrite (A p0 Np). unfold ex_sources. rewrite Ne. discriminate.
Qed.
(** A layout is edited: its pictures stay as they are. *)
Theorem C94_again_needs_hidden : exists d p, runs_again ex_g (fun p => String.eqb p (layout_file "ar-lulua")) d /\
  (forall s, In s ex_g -> In osmconvert (outs s) -> d s = false) /\
  exists (f f' F F' h : string -> option bool) c,
    consistent ex_g ex_reads any_true f F /\ consistent ex_g ex_reads any_true f' F' /\ (forall p, String.eqb p (layout_file "ar-lulua") = false -> f' p = f p) /\
    (forall p, built ex_g p -> h p = F p) /\ (forall p, ~ built ex_g p -> h p = f' p) /\
    reach (filter d ex_g) ex_reads any_true pooled (nfirst h) c /\ complete (filter d ex_g) c /\ fs c p <> F' p.
Proof.
  exists (fun s => mem (rule s) ["phony"; "report"]), (reportdir "/ar-lulua.svg"). split; [|split].
  - apply check_stale; [reflexivity|vm_compute; reflexivity|]. intros s _ E. rewrite E. reflexivity.
  - intros s Is Os. assert (C : forallb (fun s => negb (mem osmconvert (outs s)) || negb (mem (rule s) ["phony"; "report"])) ex_g = true) by (vm_compute; reflexivity).
    pose proof (proj1 (forallb_forall _ _) C s Is) as K. cbv beta in K. rewrite (proj2 (mem_In _ _) Os) in K. cbn [negb orb] in K.
    destruct (mem (rule s) ["phony"; "report"]); [discriminate K|reflexivity].
  - apply stale.
    + reflexivity.
    + rewrite built_outs. apply mem_nIn. vm_compute. reflexivity.
    + reflexivity.
    + intros F' [A B]. set (s := with_layout "ar-lulua" (after (reportdir "") (reportdir "/ar-lulua.svg") "render-svg" [])).
      assert (Is : In s ex_g) by (apply (in_layouts _ _ _ "ar-lulua"); [left; reflexivity|]; right; apply in_app_iff; right; right; left; reflexivity).
      rewrite (B s _ Is (or_introl eq_refl)). change (ex_reads s) with (layout_file "ar-lulua" :: svg_reads "render-svg"). cbn [map]. rewrite (A (layout_file "ar-lulua")); [reflexivity|].
      intros K. apply (outlike_ok all_corpora winkbd_wanted ex_found) in K; [discriminate K|apply incl_refl].
Qed.
(** osmconvert is made again: the statistics of its map are not. *)
Theorem C94_again_needs_osmconvert : exists d p, runs_again ex_g (fun p => String.eqb p "3rdparty/osmctools") d /\
  (forall p, hidden p -> String.eqb p "3rdparty/osmctools" = false) /\
  exists (f f' F F' h : string -> option bool) c,
    consistent ex_g ex_reads any_true f F /\ consistent ex_g ex_reads any_true f' F' /\ (forall p, String.eqb p "3rdparty/osmctools" = false -> f' p = f p) /\
    (forall p, built ex_g p -> h p = F p) /\ (forall p, ~ built ex_g p -> h p = f' p) /\
    reach (filter d ex_g) ex_reads any_true pooled (nfirst h) c /\ complete (filter d ex_g) c /\ fs c p <> F' p.
Proof.
  exists (fun s => mem (rule s) ["phony"; "report"; "configure-make"]), (pickle "ar-lulua" "osm"). split; [|split].
  - apply check_stale; [reflexivity|vm_compute; reflexivity|]. intros s _ E. rewrite E. reflexivity.
  - intros p [(l & ->)|Hp]; [reflexivity|unfold hidden_files in Hp; cbn [In] in Hp; repeat (destruct Hp as [<-|Hp]; [reflexivity|]); destruct Hp].
  - apply stale.
    + reflexivity.
    + rewrite built_outs. apply mem_nIn. vm_compute. reflexivity.
    + reflexivity.
    + intros F' [A B]. set (s := write_stmt "ar-lulua" ("osm", ("write-osm", [corpusdir "/osm/planet-191104.osm.pbf"]))).
      assert (Is : In s ex_g) by (apply (in_layouts _ _ _ "ar-lulua"); [left; reflexivity|]; right; apply in_app_iff; left; do 5 right; left; reflexivity).
      rewrite (B s (pickle "ar-lulua" "osm") Is (or_introl eq_refl)). change (ex_reads s) with [layout_file "ar-lulua"; osmconvert; corpusdir "/osm/planet-191104.osm.pbf"]. cbn [map].
      set (t := mkStmt [osmconvert] "configure-make" ["3rdparty/osmctools"] [] [] []).
      assert (It : In t ex_g) by (unfold ex_g, gen_sh; apply in_app_iff; left; unfold fixed_stmts; cbn [In]; do 10 right; left; reflexivity).
      rewrite (B t osmconvert It (or_introl eq_refl)). change (ex_reads t) with ["3rdparty/osmctools"]. cbn [map]. rewrite (A "3rdparty/osmctools").
      * cbn. rewrite orb_true_r. reflexivity.
      * intros K. apply (outlike_ok all_corpora winkbd_wanted ex_found) in K; [discriminate K|apply incl_refl].
Qed.
(** Something that does not need everything again: a text is replaced. *)
Example C94_again_example : exists d, runs_again ex_g (fun p => String.eqb p "corpus/hindawi/a.epub") d /\ existsb (fun s => negb (d s)) ex_g = true /\
  (forall p, hidden p -> String.eqb p "corpus/hindawi/a.epub" = false) /\ (forall s, In s ex_g -> In osmconvert (outs s) -> d s = false) /\
  d (write_stmt "ar-lulua" ("hindawi", ("write-epub", hindawi ex_found))) = true /\ d (write_stmt "ar-lulua" ("bbcarabic", ("write-bbcarabic", bbcarabic ex_found))) = false.
Proof.
  exists (fun s => mem (rule s) ["phony"; "report"; "write-epub"; "combine"; "letterfreq"; "wordlist"; "gz"; "analyze-heat"; "analyze-triadeffortdata"; "render-svg-heat";
    "analyze-layoutstats"; "analyze-corpusstats"; "analyze-triadeffortplot"]).
  split; [apply check_stale; [reflexivity|vm_compute; reflexivity|]; intros s _ E; rewrite E; reflexivity|].
  split; [vm_compute; reflexivity|]. split; [intros p [(l & ->)|Hp]; [reflexivity|unfold hidden_files in Hp; cbn [In] in Hp; repeat (destruct Hp as [<-|Hp]; [reflexivity|]); destruct Hp]|]. split; [|split; reflexivity].
  intros s Is Os. assert (C : forallb (fun s => negb (mem osmconvert (outs s)) || negb (mem (rule s) ["phony"; "report"; "write-epub"; "combine"; "letterfreq"; "wordlist"; "gz"; "analyze-heat"; "analyze-triadeffortdata"; "render-svg-heat";
    "analyze-layoutstats"; "analyze-corpusstats"; "analyze-triadeffortplot"])) ex_g = true) by (vm_compute; reflexivity).
  pose proof (proj1 (forallb_forall _ _) C s Is) as K. cbv beta in K. rewrite (proj2 (mem_In _ _) Os) in K. cbn [negb orb] in K. apply negb_true_iff, K.
Qed.

(** * C95: what the page refers to is built *)
(** A file that is there after the build, made by a statement *)
Theorem C95_page : forall corpora winkbd fd r, In r page_refs -> built (gen_sh corpora winkbd fd) (reportdir ("/" ++ r)).
Proof.
  intros corpora winkbd fd r Ir. apply built_outs, outs_gen_In. right. right.
  assert (C : forallb (fun r => mem (reportdir ("/" ++ r)) outs_rest) page_refs = true) by (vm_compute; reflexivity).
  apply mem_In. exact (proj1 (forallb_forall _ _) C r Ir).
Qed.
(** Every picture with a heat map shows the statistics of its own layout. *)
Theorem C95_heat : forall V corpora winkbd fd (run : stmt -> list (option V) -> string -> V) f F l,
  ok_inputs corpora winkbd fd -> In l gen_layouts ->
  consistent (gen_sh corpora winkbd fd) (gen_reads corpora winkbd fd) run f F ->
  exists s t, rule s = "render-svg-heat" /\ layout_of s = Some l /\ rule t = "analyze-heat" /\ layout_of t = Some l /\
    F (reportdir ("/" ++ l ++ "-heat.svg")) = Some (run s [f (layout_file l); f (plex "Thin"); f (plex "Regular"); f (datadir "/render-svg.css"); Some (run t [f (layout_file l); F (pickle l "all")] (tempdir ("/" ++ l ++ "-heat.yaml")))] (reportdir ("/" ++ l ++ "-heat.svg"))).
Proof.
  intros V corpora winkbd fd run f F l O Il [A B].
  set (s := with_layout l (after (reportdir "") (reportdir ("/" ++ l ++ "-heat.svg")) "render-svg-heat" [tempdir ("/" ++ l ++ "-heat.yaml")])).
  set (t := with_layout l (after (tempdir "") (tempdir ("/" ++ l ++ "-heat.yaml")) "analyze-heat" [pickle l "all"])).
  assert (Is : In s (gen_sh corpora winkbd fd)) by (apply (in_layouts _ _ _ l); [exact Il|]; right; apply in_app_iff; right; do 4 right; left; reflexivity).
  assert (It : In t (gen_sh corpora winkbd fd)) by (apply (in_layouts _ _ _ l); [exact Il|]; right; apply in_app_iff; right; do 2 right; left; reflexivity).
  exists s, t. split; [reflexivity|]. split; [reflexivity|]. split; [reflexivity|]. split; [reflexivity|].
  assert (Nl : ~ built (gen_sh corpora winkbd fd) (layout_file l)) by (intros K; apply outlike_ok in K; [discriminate K|apply O]).
  assert (Ns : forall p, In p [plex "Thin"; plex "Regular"; datadir "/render-svg.css"] -> ~ built (gen_sh corpora winkbd fd) p).
  { intros p Ip K. apply outlike_ok in K; [|apply O]. cbn [In] in Ip. repeat (destruct Ip as [<-|Ip]; [discriminate K|]). exact Ip. }
  rewrite (B s _ Is (or_introl eq_refl)). change (gen_reads corpora winkbd fd s) with [layout_file l; plex "Thin"; plex "Regular"; datadir "/render-svg.css"; tempdir ("/" ++ l ++ "-heat.yaml")]. cbn [map].
  rewrite (B t (tempdir ("/" ++ l ++ "-heat.yaml")) It (or_introl eq_refl)). change (gen_reads corpora winkbd fd t) with [layout_file l; pickle l "all"]. cbn [map].
  rewrite (A _ Nl), (A (plex "Thin")), (A (plex "Regular")), (A (datadir "/render-svg.css")) by (apply Ns; cbn [In]; tauto). reflexivity.
Qed.
(** The page shows statistics of every layout and of every corpus. *)
Theorem C95_statistics : forall corpora winkbd fd s, ok_inputs corpora winkbd fd -> In s (gen_sh corpora winkbd fd) -> In (reportdir "/index.html") (outs s) ->
  (forall c, In c corpora -> exists t, In t (gen_sh corpora winkbd fd) /\ rule t = "analyze-corpusstats" /\ In (pickle "ar-lulua" c) (gen_reads corpora winkbd fd t) /\
    In (metadata c) (gen_reads corpora winkbd fd t) /\ exists p, outs t = [p] /\ In p (gen_reads corpora winkbd fd s) /\ In p (needs s)) /\
  (forall l, In l gen_layouts -> exists t, In t (gen_sh corpora winkbd fd) /\ rule t = "analyze-layoutstats" /\ layout_of t = Some l /\ In (pickle l "all") (gen_reads corpora winkbd fd t) /\
    exists p, outs t = [p] /\ In p (gen_reads corpora winkbd fd s) /\ In p (needs s)).
Proof.
  intros corpora winkbd fd s O Is Os.
  set (s1 := mkStmt [reportdir "/index.html"] "report" [] ["always"] (reportdir "" :: map metafile corpora ++ layoutstatsfiles) [("corpus", map metafile corpora); ("layoutstats", layoutstatsfiles)]).
  assert (Is1 : In s1 (gen_sh corpora winkbd fd)) by (unfold gen_sh; rewrite !in_app_iff; do 6 right; right; right; left; reflexivity).
  rewrite (one_stmt_In _ (gen_once _ _ _ O) s s1 (reportdir "/index.html") Is Is1 Os (or_introl eq_refl)). clear s Is Os.
  assert (Rd : gen_reads corpora winkbd fd s1 = datadir "/report/index.html" :: map metafile corpora ++ layoutstatsfiles).
  { unfold gen_reads, reads, layout_of. cbn [s1 rule]. change (mem "report" lulua_rules) with false. change (mem "report" layout_rules) with false. change (mem "report" find_rules) with false.
    cbn [String.eqb Ascii.eqb Bool.eqb app]. reflexivity. }
  split.
  - intros c Ic. exists (corpus_stmt c). split; [unfold gen_sh; rewrite !in_app_iff; do 5 right; left; apply in_map, Ic|]. split; [reflexivity|].
    split; [right; right; left; reflexivity|]. split; [right; left; reflexivity|]. exists (metafile c). split; [reflexivity|]. split.
    + rewrite Rd. right. apply in_app_iff. left. apply in_map, Ic.
    + cbn [needs s1 ins imps ords app]. right. right. apply in_app_iff. left. apply in_map, Ic.
  - intros l Il. exists (with_layout l (after (tempdir "") (tempdir ("/" ++ l ++ "-layoutstats.pickle")) "analyze-layoutstats" [pickle l "all"])).
    split; [apply (in_layouts _ _ _ l); [exact Il|]; right; apply in_app_iff; right; do 7 right; left; reflexivity|]. split; [reflexivity|]. split; [reflexivity|].
    split; [right; left; reflexivity|]. exists (tempdir ("/" ++ l ++ "-layoutstats.pickle")). split; [reflexivity|]. split.
    + rewrite Rd. right. apply in_app_iff. right. unfold layoutstatsfiles. apply (in_map (fun l => tempdir ("/" ++ l ++ "-layoutstats.pickle"))), Il.
    + cbn [needs s1 ins imps ords app]. right. right. apply in_app_iff. right. unfold layoutstatsfiles. apply (in_map (fun l => tempdir ("/" ++ l ++ "-layoutstats.pickle"))), Il.
Qed.
(** What install.bat copies and runs, and the notes (data/winkbd/install.bat) *)
Definition archive_files : list string := ["System32/kbdarlulua.dll"; "SysWOW64/kbdarlulua.dll"; "lulua.reg"; "install.bat"; "README.txt"].
(** The archive has both drivers and the files for their installation, and nothing else. *)
Theorem C95_archive : forall corpora winkbd fd s p, ok_inputs corpora winkbd fd -> In s (gen_sh corpora winkbd fd) -> In (reportdir "/ar-lulua-w64.zip") (outs s) ->
  In p (gen_reads corpora winkbd fd s) <-> exists f, In f archive_files /\ p = (tempdir "/ar-lulua-w64/" ++ f)%string.
Proof.
  intros corpora winkbd fd s p O Is Os. assert (AF : forall f, In f archive_files <-> In f w64zipfile) by (intros f; cbn [archive_files w64zipfile In]; tauto).
  setoid_rewrite AF.
  set (s1 := mkStmt [reportdir "/ar-lulua-w64.zip"] "zipR" [tempdir "/ar-lulua-w64"] (map (fun f => tempdir ("/ar-lulua-w64/" ++ f)) w64zipfile) [] []).
  assert (Is1 : In s1 (gen_sh corpora winkbd fd)).
  { unfold gen_sh; rewrite !in_app_iff. do 2 right. left. unfold driver_stmts. rewrite !in_app_iff. right. right. left. reflexivity. }
  rewrite (one_stmt_In _ (gen_once _ _ _ O) s s1 (reportdir "/ar-lulua-w64.zip") Is Is1 Os (or_introl eq_refl)). clear s Is Os.
  assert (Rd : gen_reads corpora winkbd fd s1 = filter (prefixed (tempdir "/ar-lulua-w64" ++ "/")) (flat_map outs (gen_sh corpora winkbd fd))).
  { unfold gen_reads, reads, layout_of. cbn [s1 rule]. change (mem "zipR" lulua_rules) with false. change (mem "zipR" layout_rules) with false. change (mem "zipR" find_rules) with false.
    cbn [String.eqb Ascii.eqb Bool.eqb app ins flat_map]. apply app_nil_r. }
  split.
  - intros Ip. destruct (gen_reads_cases corpora winkbd fd s1 p O Is1 Ip) as [K|[(l & E & _)|K]].
    + cbn [s1 ins imps app] in K. destruct K as [<-|K]; [|apply in_map_iff in K as (f & <- & If); exists f; split; [exact If|reflexivity]].
      exfalso. rewrite Rd in Ip. apply filter_In in Ip as [_ Ip]. discriminate Ip.
    + discriminate E.
    + discriminate K.
  - intros (f & If & ->). rewrite Rd. apply filter_In. split; [|apply (prefix_app (tempdir "/ar-lulua-w64/") f)]. apply outs_gen_In. right. right.
    unfold outs_rest. rewrite !in_app_iff. right. left. unfold driver_stmts. rewrite !flat_map_app, !in_app_iff. right. left.
    apply in_flat_map. exists (after (tempdir "/ar-lulua-w64") (tempdir ("/ar-lulua-w64/" ++ f)) "cp" [tempdir ("/winkbd/" ++ f)]).
    split; [|left; reflexivity]. apply (in_map (fun f => after (tempdir "/ar-lulua-w64") (tempdir ("/ar-lulua-w64/" ++ f)) "cp" [tempdir ("/winkbd/" ++ f)])), If.
Qed.
(** Both drivers are made from sources the outer build knows about. *)
Theorem C95_driver : forall corpora winkbd fd s f, ok_inputs corpora winkbd fd -> In s (gen_sh corpora winkbd fd) -> rule s = "ninjaC" ->
  In f driver_sources \/ f = "build.ninja" -> In (tempdir ("/winkbd/" ++ f)) (imps s) /\ built (gen_sh corpora winkbd fd) (tempdir ("/winkbd/" ++ f)).
Proof.
  intros corpora winkbd fd s f O Is Hr Hf.
  assert (Kf : In f winkbd \/ f = "keyboard.c").
  { assert (If : In f ("build.ninja" :: driver_sources)) by (destruct Hf as [Hf| -> ]; [right; exact Hf|left; reflexivity]).
    change ("build.ninja" :: driver_sources) with ["build.ninja"; "keyboard.c"; "keyboard.def"; "linker.ld"; "keyboard.c"; "keyboard.def"; "linker.ld"; "keyboard.rc"; "keyboard.rc"] in If.
    cbn [In] in If. pose proof (ok_wanted _ _ _ O) as W. unfold winkbd_wanted in W.
    repeat (destruct If as [<-|If]; [first [right; reflexivity|left; apply W; cbn [In]; tauto]|]). destruct If. }
  split.
  - assert (E : imps s = w64infiles winkbd).
    { clear Hf Kf. unfold gen_sh in Is. rewrite !in_app_iff in Is. destruct Is as [Is|[Is|[Is|[Is|[Is|[Is|Is]]]]]].
      - unfold fixed_stmts in Is. cbn [In] in Is. repeat (destruct Is as [<-|Is]; [discriminate Hr|]). destruct Is.
      - apply in_map_iff in Is as (x & <- & _). discriminate Hr.
      - unfold driver_stmts in Is. apply in_app_iff in Is as [Is|Is]; [|apply in_app_iff in Is as [Is|Is]].
        + destruct Is as [<-|[<-|[<-|[]]]]; [discriminate Hr|discriminate Hr|reflexivity].
        + apply in_map_iff in Is as (x & <- & _). discriminate Hr.
        + destruct Is as [<-|[]]. discriminate Hr.
      - apply in_flat_map in Is as (l & _ & Is). destruct Is as [<-|Is]; [discriminate Hr|]. apply in_app_iff in Is as [Is|Is].
        + apply in_map_iff in Is as ((c & r & fs) & <- & I). cbn [write_stmt rule fst snd] in Hr. subst r. unfold corpus_rules in I. cbn [In] in I.
          repeat (destruct I as [I|I]; [discriminate I|]). destruct I.
        + cbn [In] in Is. repeat (destruct Is as [<-|Is]; [discriminate Hr|]). destruct Is.
      - apply in_map_iff in Is as (l & <- & _). discriminate Hr.
      - apply in_map_iff in Is as (c & <- & _). discriminate Hr.
      - destruct Is as [<-|[<-|[<-|[]]]]; discriminate Hr. }
    rewrite E. unfold w64infiles. apply in_app_iff. destruct Kf as [Kf| -> ]; [left; apply (in_map (fun f => tempdir ("/winkbd/" ++ f))), Kf|right; left; reflexivity].
  - apply built_outs, outs_gen_In. destruct Kf as [Kf| -> ]; [left; eauto|right; right]. unfold outs_rest. rewrite !in_app_iff. right. left. left. reflexivity.
Qed.
(** Users are told to read a file the archive does not have. *)
(** Windows wants drivers of 64 bits in System32 and of 32 bits in SysWOW64; everything linked is made for the same machine. *)
Definition machine (bits : list string) : list string := if eqb bits ["64"] then ["pe-x86-64"] else if eqb bits ["32"] then ["pe-i386"] else [].
Theorem C95_machine s : In s driver_ninja -> rule s = "cc" ->
  (outs s = ["System32/kbdarlulua.dll"] /\ var s "bits" = ["64"] \/ outs s = ["SysWOW64/kbdarlulua.dll"] /\ var s "bits" = ["32"]) /\
  (forall r f, In r driver_ninja -> rule r = "res" -> In f (outs r) -> In f (ins s) -> var r "target" = machine (var s "bits")) /\
  (exists r f, In r driver_ninja /\ rule r = "res" /\ ins r = ["keyboard.rc"] /\ In f (outs r) /\ In f (ins s)) /\ In "keyboard.c" (ins s).
Proof.
  assert (H : forallb (fun s => negb (eqb (rule s) "cc") ||
     ((eqb (outs s) ["System32/kbdarlulua.dll"] && eqb (var s "bits") ["64"] || eqb (outs s) ["SysWOW64/kbdarlulua.dll"] && eqb (var s "bits") ["32"]) &&
      forallb (fun r => negb (eqb (rule r) "res") || forallb (fun f => negb (mem f (ins s)) || eqb (var r "target") (machine (var s "bits"))) (outs r)) driver_ninja &&
      existsb (fun r => eqb (rule r) "res" && eqb (ins r) ["keyboard.rc"] && existsb (fun f => mem f (ins s)) (outs r)) driver_ninja && mem "keyboard.c" (ins s))) driver_ninja = true) by (vm_compute; reflexivity).
  intros I R. rewrite forallb_forall in H. specialize (H s I). rewrite R, eqb_refl in H. cbn [negb orb] in H.
  apply andb_prop in H as [H H4]. apply andb_prop in H as [H H3]. apply andb_prop in H as [H1 H2]. split; [|split; [|split]].
  - apply orb_prop in H1 as [H1|H1]; apply andb_prop in H1 as [A B]; apply (proj1 (eqb_eq _ _)) in A; apply (proj1 (eqb_eq _ _)) in B; auto.
  - intros r f Ir Rr If Is. rewrite forallb_forall in H2. specialize (H2 r Ir). rewrite Rr, eqb_refl in H2. cbn [negb orb] in H2. rewrite forallb_forall in H2. specialize (H2 f If).
    apply mem_In in Is. rewrite Is in H2. cbn [negb orb] in H2. now apply eqb_eq.
  - apply existsb_exists in H3 as (r & Ir & H3). apply andb_prop in H3 as [H3 C]. apply andb_prop in H3 as [A B]. apply existsb_exists in C as (f & If & C).
    apply (proj1 (eqb_eq _ _)) in A. apply (proj1 (eqb_eq _ _)) in B. apply mem_In in C. exists r, f. auto.
  - apply mem_In, H4.
Qed.
Theorem C95_archive_refuted : exists f, In f page_archive /\ forall corpora winkbd fd s, ok_inputs corpora winkbd fd -> In s (gen_sh corpora winkbd fd) ->
  In (reportdir "/ar-lulua-w64.zip") (outs s) -> ~ In (tempdir "/ar-lulua-w64/" ++ f)%string (gen_reads corpora winkbd fd s).
Proof.
  exists "INSTALL.txt". split; [left; reflexivity|]. intros corpora winkbd fd s O Is Os K. apply (C95_archive corpora winkbd fd s _ O Is Os) in K as (f & If & E).
  apply append_inj in E. subst f. unfold archive_files in If. cbn [In] in If. repeat (destruct If as [If|If]; [discriminate If|]). exact If.
Qed.
Example C95_example : In "ar-malas-heat.svg" page_refs /\ In "ar-malas" gen_layouts /\ ok_inputs all_corpora winkbd_wanted ex_found /\
  exists s, In s ex_g /\ In (reportdir "/index.html") (outs s) /\ List.length (ex_reads s) = 21.
Proof.
  split; [apply mem_In; reflexivity|]. split; [apply mem_In; reflexivity|]. split; [exact C94_example|].
  eexists. split; [unfold ex_g, gen_sh; rewrite !in_app_iff; do 6 right; right; right; left; reflexivity|]. split; [left; reflexivity|]. vm_compute. reflexivity.
Qed.

Print Assumptions C94_once.
Print Assumptions C94_build.
Print Assumptions C94_ends.
Print Assumptions C94_pool.
Print Assumptions C94_typed.
Print Assumptions C94_combined.
Print Assumptions C94_own_layout.
Print Assumptions C94_again.
Print Assumptions C94_needs_known.
Print Assumptions C94_needs_found.
Print Assumptions C94_again_needs_hidden.
Print Assumptions C94_again_needs_osmconvert.
Print Assumptions C95_page.
Print Assumptions C95_heat.
Print Assumptions C95_statistics.
Print Assumptions C95_archive.
Print Assumptions C95_driver.
Print Assumptions C95_machine.
Print Assumptions C95_archive_refuted.
