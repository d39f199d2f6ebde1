(** Invariant, termination and progress of the pipeline. *)
From Coq Require Import Permutation.
From Verif Require Import Base PipeModel PipeSpec.
Set Implicit Arguments.
Open Scope list_scope.

Definition nsum {A} (f : A -> nat) (l : list A) : nat := fold_right (fun x n => f x + n) 0 l.
Lemma nsum_app {A} (f : A -> nat) l m : nsum f (l ++ m) = nsum f l + nsum f m.
Proof. induction l as [|x l IH]; cbn; [reflexivity|]. fold (nsum f (l ++ m)) (nsum f l). lia. Qed.
Lemma nsum_cons {A} (f : A -> nat) x l : nsum f (x :: l) = f x + nsum f l.
Proof. reflexivity. Qed.
Lemma nsum_nil {A} (f : A -> nat) : nsum f [] = 0.
Proof. reflexivity. Qed.
Lemma nsum_Permutation {A} (f : A -> nat) l m : Permutation l m -> nsum f l = nsum f m.
Proof. induction 1; rewrite ?nsum_cons; lia. Qed.
Lemma nsum_repeat {A} (f : A -> nat) x n : nsum f (repeat x n) = n * f x.
Proof. induction n; cbn [repeat]; [reflexivity|]. rewrite nsum_cons, IHn. lia. Qed.
Lemma nsum_In {A} (f : A -> nat) l x : In x l -> f x <= nsum f l.
Proof. induction l as [|y l IH]; [intros []|]. rewrite nsum_cons. intros [->|Hi]; [lia|]. specialize (IH Hi). lia. Qed.
Lemma nsum_le {A} (f g : A -> nat) l : (forall x, In x l -> f x <= g x) -> nsum f l <= nsum g l.
Proof. induction l as [|y l IH]; intros Hl; [reflexivity|]. rewrite !nsum_cons. specialize (Hl y (or_introl eq_refl)) as H1. enough (nsum f l <= nsum g l) by lia. apply IH. intros x Hx. apply Hl. right. exact Hx. Qed.
Lemma nsum_pos {A} (f : A -> nat) l : 0 < nsum f l -> exists x, In x l /\ 0 < f x.
Proof. induction l as [|y l IH]; cbn; [lia|]. fold (nsum f l). intros Hp. destruct (f y) eqn:E; [|exists y; split; [auto|lia]]. destruct IH as (x & Hx & H); [lia|]. exists x. auto. Qed.
Lemma nsum_flat {A B} (f : B -> nat) (g : A -> list B) l : nsum f (flat_map g l) = nsum (fun x => nsum f (g x)) l.
Proof. induction l as [|x l IH]; cbn [flat_map]; [reflexivity|]. rewrite nsum_app, nsum_cons, IH. reflexivity. Qed.

Section Proofs.
  Context {L E : Type} `{EqDec L}.
  Variable fails : L -> option E.
  Variable jobs : nat.
  Notation state := (state L E).
  Notation step := (step fails jobs).
  Notation reachable := (reachable fails jobs).

  (** * Termination: every step decreases a measure. *)
  Definition m_weight (m : mstate E) (n : nat) : nat :=
    match m with
    | MRead => 6 * n + 3 * jobs + 7
    | MCheck => 6 * n + 3 * jobs + 8
    | MExit k => 3 * k + 6
    | MGet k => 3 * k + 7
    | MStatus => 5 | MJoin => 3 | MJoinW => 2 | MDone => 1 | MRaised _ => 0 | MAssert => 0
    end.
  Definition w_weight (w : wstate L E) : nat :=
    match w with WIdle _ => 2 | WStatus _ => 5 | WOut _ => 1 | WErr _ _ => 1 | WDead => 0 end.
  Definition i_weight (x : option L) : nat := match x with Some _ => 4 | None => 1 end.
  Definition weight (s : state) : nat :=
    m_weight (main s) (length (rest s)) + nsum i_weight (inq s) + length (statusq s) + nsum w_weight (workers s).
  Lemma step_weight s s' : step s s' -> weight s' < weight s.
  Proof.
    intros S; destruct S; unfold weight; cbn [main rest inq outq statusq workers m_weight length];
      rewrite ?nsum_app, ?nsum_cons, ?app_length; cbn [w_weight i_weight nsum fold_right length]; lia.
  Qed.
  Lemma run_bounded n s s' : run fails jobs n s s' -> n + weight s' <= weight s.
  Proof. induction 1 as [|n s s1 s2 Hs _ IH]; [lia|]. apply step_weight in Hs. lia. Qed.

  (** * Invariant *)
  Definition dead (w : wstate L E) : nat := match w with WDead => 1 | _ => 0 end.
  Definition wout (w : wstate L E) : nat := match w with WOut _ => 1 | _ => 0 end.
  Definition isRes (r : reply L E) : nat := match r with RResult _ => 1 | _ => 0 end.
  Definition isExn (r : reply L E) : nat := match r with RExn _ _ => 1 | _ => 0 end.
  Definition isNone (x : option L) : nat := match x with None => 1 | _ => 0 end.
  Definition isEnd (x : smsg) : nat := match x with SEnd => 1 | _ => 0 end.
  Definition toget (m : mstate E) : nat := match m with MRead | MCheck => jobs | MExit k => k | MGet k => S k | _ => 0 end.
  Definition toput (m : mstate E) : nat := match m with MRead | MCheck => jobs | MExit k => k | MGet k => k | _ => 0 end.
  Definition reading (m : mstate E) : bool := match m with MRead | MCheck => true | _ => false end.
  Definition ending (m : mstate E) : nat := match m with MJoin | MJoinW | MDone => 1 | _ => 0 end.
  Definition wacc (w : wstate L E) : list L := match w with WIdle a | WStatus a | WOut a | WErr _ a => a | WDead => [] end.
  Definition racc (r : reply L E) : list L := match r with RResult a | RExn _ a => a end.
  Definition lines_of (q : list (option L)) : list L := flat_map (fun x => match x with Some l => [l] | None => [] end) q.
  Definition good (l : L) : Prop := fails l = None.
  Definition has_failed (e : E) (lost : list L) : Prop := exists l, In l lost /\ fails l = Some e.
  Definition w_ok (w : wstate L E) : Prop := match w with WIdle a | WStatus a | WOut a => Forall good a | WErr e a => has_failed e a | WDead => True end.
  Definition r_ok (r : reply L E) : Prop := match r with RResult a => Forall good a | RExn e a => has_failed e a end.

  Definition inv (lines : list L) (s : state) : Prop :=
    length (workers s) = jobs /\
    nsum isRes (outq s) + nsum isExn (outq s) + length (outputs s) = nsum dead (workers s) /\
    length (outputs s) + toget (main s) = jobs /\
    nsum isNone (inq s) + nsum wout (workers s) + nsum isRes (outq s) + length (outputs s) + toput (main s) = jobs /\
    (exists ls n, inq s = map Some ls ++ repeat None n) /\
    (0 < nsum wout (workers s) + nsum isRes (outq s) + length (outputs s) -> lines_of (inq s) = []) /\
    (forall f, nsum f lines = nsum f (rest s) + nsum f (lines_of (inq s)) + nsum (fun w => nsum f (wacc w)) (workers s) +
                              nsum (fun r => nsum f (racc r)) (outq s) + nsum (nsum f) (outputs s)) /\
    (reading (main s) = false -> rest s <> [] -> 0 < nsum isExn (outq s)) /\
    nsum isEnd (statusq s) + (if status_done s then 1 else 0) = ending (main s) /\
    (main s = MJoinW \/ main s = MDone -> status_done s = true) /\
    Forall w_ok (workers s) /\ Forall r_ok (outq s) /\ Forall (Forall good) (outputs s).
  Definition Inv (lines : list L) (s : state) : Prop :=
    match main s with
    | MRaised e => exists l, In l lines /\ fails l = Some e
    | MAssert => False
    | _ => inv lines s
    end.

  Lemma lines_app a b : lines_of (a ++ b) = lines_of a ++ lines_of b.
  Proof. apply flat_map_app. Qed.
  Lemma lines_shape ls n : lines_of (map Some ls ++ repeat None n) = ls.
  Proof.
    rewrite lines_app. replace (lines_of (repeat None n)) with (@nil L) by (induction n; cbn; auto).
    rewrite app_nil_r. induction ls; cbn; [reflexivity|]. f_equal. exact IHls.
  Qed.
  Lemma none_shape ls n : nsum isNone (map Some ls ++ repeat None n) = n.
  Proof. rewrite nsum_app, nsum_repeat. cbn [isNone]. replace (nsum isNone (map Some ls)) with 0; [lia|]. induction ls; cbn; auto. Qed.

  Lemma inv_init lines : Inv lines (init jobs lines).
  Proof.
    unfold Inv, inv, init. cbn [main rest inq outq statusq workers status_done outputs reading toget toput ending].
    split; [apply repeat_length|]. split; [rewrite nsum_repeat; cbn; lia|]. split; [reflexivity|].
    split; [rewrite nsum_repeat; cbn; lia|]. split; [exists [], 0; reflexivity|]. split; [reflexivity|].
    split; [|split; [discriminate|split; [reflexivity|split; [intros [A|A]; discriminate|]]]].
    - intros f. rewrite nsum_repeat. cbn. lia.
    - split; [|split; constructor]. induction jobs; cbn; constructor; auto. constructor.
  Qed.

  Lemma shape_tail x q ls n : x :: q = map Some ls ++ repeat None n ->
    match x with
    | Some l => exists ls', ls = l :: ls' /\ q = map (@Some L) ls' ++ repeat None n
    | None => ls = [] /\ exists n', n = S n' /\ q = repeat None n'
    end.
  Proof.
    destruct ls as [|l ls]; cbn.
    - destruct n as [|n]; cbn; [discriminate|]. intros X; inversion X; subst. eauto.
    - intros X; inversion X; subst. eauto.
  Qed.

  Ltac norm := cbn [main rest inq outq statusq workers status_done outputs reading toget toput ending] in *;
    rewrite ?nsum_app, ?nsum_cons, ?app_length, ?nsum_nil, ?lines_app in *;
    cbn [dead wout isRes isExn isNone isEnd length wacc racc] in *.
  Ltac fa := repeat match goal with
    | H : Forall _ (_ ++ _) |- _ => apply Forall_app in H as [? ?]
    | H : Forall _ (_ :: _) |- _ => inversion H; clear H; subst
    | |- Forall _ (_ ++ _) => apply Forall_app; split
    | |- Forall _ (_ :: _) => constructor
    | |- Forall _ [] => constructor
    end; cbn [w_ok r_ok] in *; auto.

  Lemma dead_le (ws : list (wstate L E)) : nsum dead ws <= length ws.
  Proof. induction ws as [|w ws IH]; [reflexivity|]. rewrite nsum_cons. cbn [length]. destruct w; cbn [dead]; lia. Qed.

  Lemma lines_cons x q : lines_of (x :: q) = match x with Some l => l :: lines_of q | None => lines_of q end.
  Proof. destruct x; reflexivity. Qed.
  Lemma no_lines_none q : lines_of q = [] -> lines_of (q ++ [None]) = [].
  Proof. intros Hq. rewrite lines_app, Hq. reflexivity. Qed.

  Lemma lift (lines : list L) m r iq oq sq ws sd out r' iq' oq' sq' ws' sd' out' :
    (inv lines (mkState m r iq oq sq ws sd out) -> inv lines (mkState m r' iq' oq' sq' ws' sd' out')) ->
    Inv lines (mkState m r iq oq sq ws sd out) -> Inv lines (mkState m r' iq' oq' sq' ws' sd' out').
  Proof. intros Hi. unfold Inv. cbn [main]. destruct m; auto. Qed.

  Lemma replies (q : list (reply L E)) : nsum isRes q + nsum isExn q = length q.
  Proof. induction q as [|x q IH]; [reflexivity|]. rewrite !nsum_cons. cbn [length]. destruct x; cbn [isRes isExn]; lia. Qed.
  Lemma weight_In (x : L) l : 0 < nsum (fun y => if eqb x y then 1 else 0) l <-> In x l.
  Proof.
    induction l as [|y l IH]; [cbn; split; [lia|intros []]|]. rewrite nsum_cons. destruct (eqb_spec x y) as [E1|E1]; cbn [In].
    - split; [auto|lia].
    - rewrite <- IH. split; [intros; right; lia|intros [?|?]; [congruence|lia]].
  Qed.
  Lemma weight_Permutation (l m : list L) : (forall f, nsum f l = nsum f m) -> Permutation l m.
  Proof.
    revert m; induction l as [|x l IH]; intros m Hf.
    - destruct m as [|y m]; [constructor|]. specialize (Hf (fun _ => 1)). cbn in Hf. lia.
    - assert (Hx : In x m).
      { apply weight_In. rewrite <- Hf, nsum_cons, eqb_refl. lia. }
      apply in_split in Hx as (m1 & m2 & ->). apply Permutation_cons_app. apply IH. intros f. specialize (Hf f).
      rewrite nsum_app, !nsum_cons in Hf. rewrite nsum_app. lia.
  Qed.
  Lemma inv_step lines s s' : Inv lines s -> step s s' -> Inv lines s'.
  Proof.
    intros I S. destruct S;
      try (revert I; apply lift; intros (I1 & I2 & I3 & I4 & (ls & n & I5) & I6 & I7 & I8 & I9 & I10 & I11 & I12 & I13));
      try (unfold Inv in I; cbn [main] in I; destruct I as (I1 & I2 & I3 & I4 & (ls & n & I5) & I6 & I7 & I8 & I9 & I10 & I11 & I12 & I13); unfold Inv; cbn [main]);
      unfold inv in *; norm;
      repeat match goal with |- _ /\ _ => split end; try (exists ls, n; assumption); try lia; try assumption; fa;
      try (intros f; specialize (I7 f); rewrite ?lines_cons in *; cbn [lines_of flat_map] in *; rewrite ?app_nil_r, ?nsum_app, ?nsum_cons, ?nsum_nil in *;
           cbn [wacc racc] in *; rewrite ?app_nil_r, ?nsum_app, ?nsum_cons, ?nsum_nil in *; lia);
      try (intros [?|?]; discriminate); try discriminate; try (intros _ ?; congruence); try (intros ?; apply I6; lia).
    - exists (ls ++ [l]), 0. assert (n = 0) as ->; [rewrite I5, none_shape in I4; lia|].
      rewrite I5. cbn [repeat]. rewrite !app_nil_r, map_app. reflexivity.
    - intros _ _. pose proof (replies oq) as Hr. destruct oq; [congruence|]. cbn [length] in Hr. lia.
    - exists ls, (S n). rewrite I5, <- app_assoc. f_equal. clear. induction n; cbn; [reflexivity|]. f_equal. exact IHn.
    - intros Hp. rewrite I6 by exact Hp. reflexivity.
    - match goal with X : has_failed e lost |- _ => destruct X as (l & Hl & Hf) end. exists l. split; [|exact Hf]. apply weight_In. rewrite I7. rewrite nsum_app, nsum_cons. cbn [racc].
      apply weight_In in Hl. lia.
    - pose proof (dead_le ws). pose proof (replies oq) as Hr. destruct oq; [congruence|]. cbn [length] in Hr. lia.
    - apply shape_tail in I5 as (ls' & -> & ->). eauto.
    - intros Hp. exfalso. assert (Hc : lines_of (Some l :: iq) = []) by (apply I6; lia). rewrite lines_cons in Hc. discriminate.
    - apply Forall_app. split; [assumption|]. constructor; [assumption|constructor].
    - apply shape_tail in I5 as (ls' & -> & ->). eauto.
    - intros Hp. exfalso. assert (Hc : lines_of (Some l :: iq) = []) by (apply I6; lia). rewrite lines_cons in Hc. discriminate.
    - exists l. split; [apply in_or_app; right; left; reflexivity|assumption].
    - apply shape_tail in I5 as (-> & n' & -> & ->). exists [], n'. reflexivity.
    - intros _. apply shape_tail in I5 as (-> & n' & -> & ->). apply (lines_shape [] n').
  Qed.
  Lemma reachable_Inv lines s : reachable lines s -> Inv lines s.
  Proof. induction 1; [apply inv_init|]. eapply inv_step; eassumption. Qed.

  (** * Consequences *)
  Lemma raised_failed lines s e : reachable lines s -> main s = MRaised e -> exists l, In l lines /\ fails l = Some e.
  Proof. intros R Em. apply reachable_Inv in R. unfold Inv in R. rewrite Em in R. exact R. Qed.
  Lemma assert_never lines s : reachable lines s -> main s <> MAssert.
  Proof. intros R Em. apply reachable_Inv in R. unfold Inv in R. rewrite Em in R. exact R. Qed.

  Lemma all_dead (ws : list (wstate L E)) : nsum dead ws = length ws -> Forall (fun w => w = WDead) ws.
  Proof.
    induction ws as [|w ws IH]; [constructor|]. rewrite nsum_cons. cbn [length]. pose proof (dead_le ws). intros Hd.
    destruct w; cbn [dead] in Hd; try lia. constructor; [reflexivity|]. apply IH. lia.
  Qed.
  Lemma dead_empty (ws : list (wstate L E)) f : Forall (fun w => w = WDead) ws -> nsum (fun w => nsum f (wacc w)) ws = 0.
  Proof. induction 1 as [|w ws -> F IH]; [reflexivity|]. rewrite nsum_cons, IH. reflexivity. Qed.

  Definition ended (m : mstate E) : Prop := match m with MStatus | MJoin | MJoinW | MDone => True | _ => False end.
  Lemma ended_state lines s : reachable lines s -> ended (main s) ->
    Forall (fun w => w = WDead) (workers s) /\ outq s = [] /\ rest s = [] /\ length (outputs s) = jobs /\
    nsum isNone (inq s) = 0 /\ Forall (Forall good) (outputs s) /\
    (0 < jobs -> inq s = [] /\ Permutation lines (concat (outputs s))).
  Proof.
    intros R Hm. apply reachable_Inv in R. unfold Inv in R.
    assert (I : inv lines s) by (destruct (main s); cbn in Hm; tauto || exact R). clear R.
    destruct I as (I1 & I2 & I3 & I4 & (ls & n & I5) & I6 & I7 & I8 & I9 & I10 & I11 & I12 & I13).
    assert (Hg : toget (main s) = 0) by (destruct (main s); cbn in Hm |- *; tauto || reflexivity).
    assert (Hr : reading (main s) = false) by (destruct (main s); cbn in Hm |- *; tauto || reflexivity).
    pose proof (dead_le (workers s)) as Hd. pose proof (replies (outq s)) as Hq.
    assert (Hw : Forall (fun w => w = WDead) (workers s)) by (apply all_dead; lia).
    assert (Ho : outq s = []) by (destruct (outq s); [reflexivity|]; cbn [length] in Hq; lia).
    assert (He : rest s = []).
    { destruct (rest s); [reflexivity|]. rewrite Ho in I8. cbn in I8. exfalso. assert (0 < 0); [|lia]. apply I8; [exact Hr|discriminate]. }
    split; [exact Hw|]. split; [exact Ho|]. split; [exact He|]. split; [lia|]. split; [lia|]. split; [exact I13|]. intros Hj.
    assert (Hl : lines_of (inq s) = []) by (apply I6; lia).
    assert (Hin : inq s = []).
    { rewrite I5 in Hl |- *. rewrite lines_shape in Hl. rewrite Hl. rewrite I5, none_shape in I4. replace n with 0 by lia. reflexivity. }
    split; [exact Hin|]. apply weight_Permutation. intros f. rewrite (I7 f), He, Hl, Ho, dead_empty by exact Hw.
    cbn [nsum fold_right]. clear. induction (outputs s) as [|x l IH]; cbn [concat]; [reflexivity|]. rewrite nsum_app, nsum_cons. lia.
  Qed.

  (** * Deadlocks *)
  Lemma full_length {A} cap (q : list A) : full cap q = true -> 0 < cap /\ cap <= length q.
  Proof. unfold full. rewrite andb_true_iff, negb_true_iff, Nat.eqb_neq, Nat.leb_le. lia. Qed.
  Lemma outq_room lines s : Inv lines s -> match main s with MRaised _ => True | _ => full (jobs + 1) (outq s) = false end.
  Proof.
    unfold Inv. destruct (main s); auto; try contradiction; intros (I1 & I2 & _); pose proof (dead_le (workers s)); pose proof (replies (outq s));
      (destruct (full (jobs + 1) (outq s)) eqn:Ef; [|reflexivity]; apply full_length in Ef; lia).
  Qed.
  Lemma not_raised_room lines s : Inv lines s -> ~ finished s -> full (jobs + 1) (outq s) = false.
  Proof. intros I Hf. apply outq_room in I. unfold finished in Hf. destruct (main s); tauto. Qed.
  Lemma not_finished_inv lines s : Inv lines s -> ~ finished s -> inv lines s.
  Proof. unfold Inv, finished. destruct (main s); tauto. Qed.

  (** No worker can move. *)
  Definition blocked (w : wstate L E) : Prop := match w with WIdle _ | WDead => True | _ => False end.
  Lemma workers_blocked lines s : Inv lines s -> ~ finished s -> (forall s', ~ step s s') ->
    Forall blocked (workers s) /\ (inq s = [] \/ Forall (fun w => w = WDead) (workers s)).
  Proof.
    intros I Hf Hn. pose proof (@not_raised_room lines s I Hf) as Hroom. pose proof (@not_finished_inv lines s I Hf) as J. clear I.
    destruct s as [m r iq oq sq ws sd out]. cbn [main rest inq outq statusq workers status_done outputs] in *.
    assert (Hb : Forall blocked ws).
    { apply Forall_forall. intros w Hw. apply in_split in Hw as (w1 & w2 & ->). destruct w as [a|a|a|e a|]; cbn; try exact I.
      - destruct (full (jobs + 1) sq) eqn:Ef.
        + apply full_length in Ef as [_ Hl]. destruct sd.
          * destruct J as (J1 & J2 & J3 & _ & _ & _ & _ & _ & J9 & _). cbn [main statusq status_done workers outputs outq] in *.
            pose proof (dead_le w1). pose proof (dead_le w2). rewrite nsum_app, nsum_cons in J2. rewrite app_length in J1. cbn [dead length] in *.
            unfold finished in Hf. cbn in Hf. pose proof (replies oq). destruct m; cbn [ending toget] in *; try lia; tauto.
          * destruct sq as [|x sq]; [cbn in Hl; lia|]. destruct x.
            -- eapply Hn. apply (step_status_item fails jobs m r iq oq [] sq).
            -- eapply Hn. apply (step_status_stop fails jobs m r iq oq [] sq).
        + eapply Hn. apply step_work_status. exact Ef.
      - eapply Hn. apply step_work_out. exact Hroom.
      - eapply Hn. apply step_work_err. exact Hroom. }
    split; [exact Hb|]. destruct iq as [|x iq]; [left; reflexivity|right].
    apply Forall_forall. intros w Hw. rewrite Forall_forall in Hb. pose proof (Hb _ Hw) as Hbw. apply in_split in Hw as (w1 & w2 & ->).
    destruct w as [a|a|a|e a|]; try contradiction; [|reflexivity]. exfalso. destruct x as [l|].
    - destruct (fails l) as [e|] eqn:El; [eapply Hn, step_work_fail, El|eapply Hn, step_work, El].
    - eapply Hn. apply step_work_end.
  Qed.
  Lemma blocked_none (ws : list (wstate L E)) : Forall blocked ws -> nsum wout ws = 0.
  Proof. induction 1 as [|w ws Hw F IH]; [reflexivity|]. rewrite nsum_cons, IH. destruct w; cbn in *; tauto || reflexivity. Qed.
  Lemma dead_all (ws : list (wstate L E)) : Forall (fun w => w = WDead) ws -> nsum dead ws = length ws.
  Proof. induction 1 as [|w ws -> F IH]; [reflexivity|]. rewrite nsum_cons, IH. reflexivity. Qed.

  (** The only way to get stuck: all workers died of exceptions, none of which
      was noticed, and the input queue is full of lines. *)
  Lemma stuck_state lines s : reachable lines s -> stuck fails jobs s ->
    Forall (fun w => w = WDead) (workers s) /\ nsum isExn (outq s) = jobs /\ length (outq s) = jobs /\ outputs s = [] /\
    (exists ls, inq s = map Some ls /\ 2 * jobs <= length ls) /\ 0 < jobs.
  Proof.
    intros R [Hf Hn]. pose proof (@reachable_Inv lines s R) as I. clear R.
    destruct (@workers_blocked lines s I Hf Hn) as [Hb Hd]. apply not_finished_inv in I; [|exact Hf].
    pose proof (blocked_none Hb) as Hw0. pose proof (replies (outq s)) as Hq.
    destruct I as (I1 & I2 & I3 & I4 & (ls & n & I5) & I6 & I7 & I8 & I9 & I10 & _).
    destruct s as [m r iq oq sq ws sd out]. cbn [main rest inq outq statusq workers status_done outputs] in *.
    assert (Hfull : full (jobs * 2) iq = true -> 0 < jobs /\ Forall (fun w => w = WDead) ws).
    { intros Ef. apply full_length in Ef. split; [lia|]. destruct Hd as [->|Hd]; [cbn in Ef; lia|exact Hd]. }
    assert (Hstatus : sq <> [] -> sd = false -> False).
    { intros Hs ->. destruct sq as [|[] sq]; [congruence|eapply Hn, (step_status_item fails jobs m r iq oq [] sq)|eapply Hn, (step_status_stop fails jobs m r iq oq [] sq)]. }
    assert (G : toget m = jobs -> toput m = jobs -> full (jobs * 2) iq = true ->
      Forall (fun w => w = WDead) ws /\ nsum isExn oq = jobs /\ length oq = jobs /\ out = [] /\ (exists ls, iq = map Some ls /\ 2 * jobs <= length ls) /\ 0 < jobs).
    { intros Hg Hp Ef. destruct (Hfull Ef) as [Hj Ha]. pose proof (dead_all Ha). apply full_length in Ef.
      split; [exact Ha|]. split; [lia|]. split; [lia|]. split; [destruct out; [reflexivity|cbn in *; lia]|]. split; [|exact Hj].
      exists ls. rewrite I5, none_shape in I4. assert (n = 0) as -> by lia. cbn in I5. rewrite app_nil_r in I5. split; [exact I5|].
      rewrite I5, map_length in Ef. lia. }
    unfold finished in Hf. cbn in Hf. destruct m as [| |k|k| | | | |e|]; try tauto; cbn [toget toput ending] in *.
    - (* MRead *) destruct r as [|l r]; [exfalso; eapply Hn, step_eof|]. destruct (full (jobs * 2) iq) eqn:Ef; [|exfalso; eapply Hn, step_put, Ef].
      apply G; reflexivity.
    - exfalso. eapply Hn, step_go_on.
    - destruct k as [|k]; [exfalso; eapply Hn, step_assert_ok|]. destruct (full (jobs * 2) iq) eqn:Ef; [|exfalso; eapply Hn, step_put_none, Ef].
      destruct (Hfull eq_refl) as [Hj Ha]. pose proof (dead_all Ha) as Hda. pose proof (full_length _ _ Ef) as Hfl.
      destruct out as [|o out]; [cbn [length] in *; apply G; lia|]. exfalso.
      assert (Hl : lines_of iq = []) by (apply I6; cbn; lia). rewrite I5, lines_shape in Hl. subst ls. rewrite I5, none_shape in I4.
      rewrite I5 in Hfl. cbn [map app] in Hfl. rewrite repeat_length in Hfl. lia.
    - (* MGet *) exfalso. assert (Ho : oq = []).
      { destruct oq as [|[acc|e lost] oq]; [reflexivity|..]; exfalso.
        - eapply Hn. apply (step_get_result fails jobs k acc r iq [] oq).
        - eapply Hn. apply (step_get_exn fails jobs k e lost r iq [] oq). }
      subst oq. cbn [nsum fold_right length] in *. destruct Hd as [->|Hd].
      + cbn [nsum fold_right] in *. lia.
      + pose proof (dead_all Hd). lia.
    - (* MStatus *) exfalso. destruct (full (jobs + 1) sq) eqn:Ef; [|eapply Hn, step_status_end, Ef].
      apply full_length in Ef. apply Hstatus; [intros ->; cbn in Ef; lia|]. destruct sd; [lia|reflexivity].
    - (* MJoin *) exfalso. destruct sd; [eapply Hn, step_join_status|]. apply Hstatus; [intros ->; cbn in I9; lia|reflexivity].
    - (* MJoinW *) exfalso. eapply Hn, step_join_workers. apply all_dead. pose proof (dead_le ws). lia.
  Qed.
End Proofs.
