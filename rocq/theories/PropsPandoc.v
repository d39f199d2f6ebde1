(** C89: converting mediawiki text with another program. See lulua/text.py:253-269. *)
From Verif Require Import Base TextModel FilterModel PandocModel.
Open Scope list_scope.

(** * Specification *)
Section Spec.
  Variable S : Type.
  Variable act : S -> action S.
  (** Given all of its input the converter may write [o] and exit with code [c]. *)
  Inductive converts : S -> list N -> list N -> Z -> Prop :=
    | Cv_exit s i c : act s = AExit c -> converts s i [] c
    | Cv_write s i b s' o c : act s = AWrite b s' -> converts s' i o c -> converts s i (b :: o) c
    | Cv_read s k a r o c : act s = ARead k -> a <> [] -> converts (k a) r o c -> converts s (a ++ r) o c
    | Cv_eof s k o c : act s = ARead k -> converts (k []) [] o c -> converts s [] o c.
  (** A converter that reads all of its input before anything else; [f] is what it
      writes and its exit code. *)
  Definition reads_first (f : list N -> list N * Z) (B : list N -> S -> Prop) : Prop :=
    forall l s, B l s -> exists k, act s = ARead k /\ (forall a, a <> [] -> B (l ++ a) (k a)) /\ converts (k []) [] (fst (f l)) (snd (f l)).
End Spec.
Arguments converts {S}. Arguments reads_first {S}.
(** No step is possible. *)
Definition stuck {S} act cap dec (a : state S) : Prop := forall b, ~ step S act cap dec a b.
(** Decoded output of a successful converter, nothing of another one *)
Definition answer (dec : list N -> res text) (o : list N) (c : Z) : gen text :=
  match dec o with Raise e => ([], Some e) | Ok t => (match c with 0%Z => [t] | _ => [] end, None) end.

Section Proofs.
  Variable S : Type.
  Variable act : S -> action S.
  Variable cap : nat.
  Variable dec : list N -> res text.
  Notation step := (step S act cap dec).
  Notation steps := (steps S act cap dec).

  Lemma result_answer c o : result dec c o = answer dec o c.
  Proof. unfold result, answer. destruct (dec o) as [t|e]; [|reflexivity]. destruct c; reflexivity. Qed.
  Definition rest_of (p : parent) : list N := match p with PWrite r => r | _ => [] end.
  Definition acc_of (p : parent) : list N := match p with PRead acc => acc | _ => [] end.
  (** Whatever the converter does from now on, it could do from the beginning. *)
  Definition history (t : list N) (s0 : S) (a : state S) : Prop :=
    match s_parent a with
    | PDone g => exists o c, converts act s0 t o c /\ g = answer dec o c
    | PBroken => exists o c, converts act s0 t o c
    | p => match s_child a with
           | Alive s => forall o c, converts act s (s_in a ++ rest_of p) o c -> converts act s0 t (acc_of p ++ s_out a ++ o) c
           | Exited c => converts act s0 t (acc_of p ++ s_out a) c
           end
    end.
  Lemma history_step t s0 a b : history t s0 a -> step a b -> history t s0 b.
  Proof.
    intros H St. destruct St as [x r i s o L|x r i c o|i ch o|p a r s k o A N|acc s k o A|p i s x s' o A L|p i s c o A|acc i ch a r N|acc i c]; unfold history in *; cbn [s_parent s_child s_in s_out rest_of acc_of app] in *.
    - intros o' c H'. apply H. rewrite <- app_assoc in H'. exact H'.
    - eauto.
    - exact H.
    - destruct p; try exact H; intros o' c H'; apply H; rewrite <- app_assoc; apply (Cv_read S act s k a _ _ _ A N H').
    - intros o' c H'. apply H. apply (Cv_eof S act s k _ _ A). exact H'.
    - destruct p; try exact H; intros o' c H'; rewrite <- app_assoc; apply H; apply (Cv_write S act s _ x s' _ _ A H').
    - destruct p; try exact H; (specialize (H [] c (Cv_exit S act s _ c A)); rewrite app_nil_r in H; exact H).
    - destruct ch as [s|c]; [|rewrite <- app_assoc; exact H]. intros o' c H'. rewrite <- !app_assoc. specialize (H o' c H'). rewrite <- app_assoc in H. exact H.
    - rewrite app_nil_r in H. exists acc, c. split; [exact H|apply result_answer].
  Qed.
  Lemma history_steps t s0 b : steps (started t s0) b -> history t s0 b.
  Proof.
    intros H. remember (started t s0) as a eqn:E. induction H as [a|a b c _ IH St]; [subst a|apply (history_step _ _ _ _ (IH E) St)].
    unfold history. cbn. auto.
  Qed.

  (** Nothing but the output of the converter is yielded. *)
  Theorem C89_yielded encode s0 t g : filterMediawikiMarkdown S act cap dec encode s0 t g ->
    match encode t with
    | Raise e => g = ([], Some e)
    | Ok bytes => g = ([], Some PlainException) \/ exists o c, converts act s0 bytes o c /\ g = answer dec o c
    end.
  Proof.
    unfold filterMediawikiMarkdown. destruct (encode t) as [bytes|e]; [|auto]. intros (fin & St & E).
    apply history_steps in St. unfold history in St. destruct (s_parent fin); try discriminate E; cbn in E; injection E as <-; [right; exact St|left; reflexivity].
  Qed.

  (** Text that fits into a pipe is always converted if the converter exits: nobody
      waits for the other forever. *)
  Definition small (a : state S) : Prop := List.length (s_in a) + List.length (rest_of (s_parent a)) <= cap.
  Lemma small_step a b : small a -> step a b -> small b.
  Proof.
    intros H St. destruct St; unfold small in *; cbn [s_parent s_in rest_of List.length] in *; try exact H.
    - rewrite app_length. cbn. lia.
    - lia.
    - rewrite app_length in H. lia.
  Qed.
  Lemma small_steps a b : small a -> steps a b -> small b.
  Proof. intros H St. induction St as [|a b c _ IH St]; [exact H|]. apply (small_step _ _ (IH H) St). Qed.
  Theorem C89_fits bytes s0 b : 0 < cap -> List.length bytes <= cap -> steps (started bytes s0) b ->
    outcome (s_parent b) = None -> exists c, step b c.
  Proof.
    intros Cp L St O. assert (Sm : small b) by (apply (small_steps (started bytes s0) b); [exact L|exact St]). clear St. destruct b as [p i ch o]. unfold small in Sm. cbn in *.
    destruct p as [r|acc|g|]; try discriminate O; cbn in Sm.
    - destruct r as [|x r]; [eexists; apply St_close|]. destruct ch as [s|c]; [|eexists; apply St_broken].
      eexists. apply St_write. cbn in Sm. lia.
    - destruct o as [|x o]; [|eexists; apply (St_pread S act cap dec acc i ch [x] o); discriminate].
      destruct ch as [s|c]; [|eexists; apply St_done]. destruct (act s) as [k|x s'|c] eqn:A.
      + destruct i as [|y i]; [eexists; apply (St_ceof S act cap dec acc s k [] A)|eexists; apply (St_cread S act cap dec _ [y] i s k [] A); discriminate].
      + eexists. apply (St_cwrite S act cap dec _ _ s x s' [] A). exact Cp.
      + eexists. apply (St_cexit S act cap dec _ _ s c _ A).
  Qed.

  (** * Converters that read all of their input first *)
  (** The converter after the end of its input; [n] counts what is left to do. *)
  Inductive ending : S -> nat -> list N -> Z -> Prop :=
    | En_exit s c : act s = AExit c -> ending s 1 [] c
    | En_write s b s' n o c : act s = AWrite b s' -> ending s' n o c -> ending s (2 + n) (b :: o) c
    | En_eof s k n o c : act s = ARead k -> ending (k []) n o c -> ending s (1 + n) o c.
  Lemma ending_of s i o c : converts act s i o c -> i = [] -> exists n, ending s n o c.
  Proof.
    intros H. induction H as [s i c A|s i b s' o c A _ IH|s k a r o c A N _ _|s k o c A _ IH]; intros E.
    - exists 1. apply En_exit, A.
    - destruct (IH E) as (n & H). exists (2 + n). apply (En_write _ _ _ _ _ _ A H).
    - destruct a; [contradiction|discriminate E].
    - destruct (IH E) as (n & H). exists (1 + n). apply (En_eof _ _ _ _ _ A H).
  Qed.
  Section Batch.
    Variable f : list N -> list N * Z.
    Variable B : list N -> S -> Prop.
    Hypothesis RF : reads_first act f B.
    Variable t : list N.
    (** Before and after the converter has read everything *)
    Inductive before : nat -> state S -> Prop :=
      | I_write l s i r : B l s -> l ++ i ++ r = t -> before (2 * List.length r + List.length i + 1) (mkS (PWrite r) i (Alive s) [])
      | I_close l s i : B l s -> l ++ i = t -> before (List.length i) (mkS (PRead []) i (Alive s) []).
    Inductive after : nat -> state S -> Prop :=
      | I_end acc o s n rest : ending s n rest (snd (f t)) -> acc ++ o ++ rest = fst (f t) -> after (List.length o + n + 1) (mkS (PRead acc) [] (Alive s) o)
      | I_exit acc o : acc ++ o = fst (f t) -> after (List.length o + 1) (mkS (PRead acc) [] (Exited (snd (f t))) o)
      | I_done : after 0 (mkS (PDone (answer dec (fst (f t)) (snd (f t)))) [] (Exited (snd (f t))) []).
    Lemma before_step n a b : before n a -> step a b -> (exists m, m < n /\ before m b) \/ exists m, after m b.
    Proof.
      intros I St. destruct I as [l s i r Hb E|l s i Hb E].
      - destruct (RF l s Hb) as (k & A & Bk & _). left. inversion St; subst.
        + eexists. split; [|apply (I_write l s (i ++ [b0]) r0 Hb); rewrite <- E, <- !app_assoc; reflexivity]. rewrite app_length. cbn. lia.
        + eexists. split; [|apply (I_close l s i Hb); rewrite <- E, app_nil_r; reflexivity]. cbn. lia.
        + assert (k0 = k) as -> by congruence. eexists. split; [|apply (I_write (l ++ a) (k a) r0 r (Bk a ltac:(assumption))); rewrite <- E, <- !app_assoc; reflexivity].
          rewrite app_length. destruct a; [contradiction|]. cbn. lia.
        + congruence.
        + congruence.
      - destruct (RF l s Hb) as (k & A & Bk & Cv). inversion St; subst.
        + assert (k0 = k) as -> by congruence. left. eexists. split; [|apply (I_close (l ++ a) (k a) r (Bk a ltac:(assumption))); rewrite <- E, <- !app_assoc; reflexivity].
          rewrite app_length. destruct a; [contradiction|]. cbn. lia.
        + assert (k0 = k) as -> by congruence. rewrite app_nil_r in E. rewrite E in Cv. destruct (ending_of _ _ _ _ Cv eq_refl) as (n & En).
          right. eexists. apply (I_end [] [] (k []) n (fst (f t)) En). reflexivity.
        + congruence.
        + congruence.
        + exfalso. match goal with N : ?a <> _, H : ?a ++ _ = [] |- _ => apply N; destruct (app_eq_nil _ _ H) as [-> ->]; reflexivity end.
    Qed.
    Lemma after_step n a b : after n a -> step a b -> exists m, m < n /\ after m b.
    Proof.
      intros I St. destruct I as [acc o s n rest En E|acc o E|].
      - inversion St; subst.
        + exfalso. match goal with N : ?a <> _, H : ?a ++ _ = [] |- _ => apply N; destruct (app_eq_nil _ _ H) as [-> ->]; reflexivity end.
        + inversion En; subst; try congruence. eexists. split; [|apply (I_end acc o (k []) n0 rest); [|exact E]]; [lia|]. assert (k = k0) as -> by congruence. assumption.
        + inversion En; subst; try congruence. assert (Q : b0 = b /\ s' = s'0) by (split; congruence). destruct Q as [-> ->].
          eexists. split; [|apply (I_end acc (o ++ [b]) s'0 n0 o0); [assumption|]]; [rewrite app_length; cbn; lia|]. rewrite <- E, <- !app_assoc. reflexivity.
        + inversion En; subst; try congruence. assert (c = snd (f t)) as -> by congruence. eexists. split; [|apply I_exit; rewrite app_nil_r in E; exact E]. lia.
        + eexists. split; [|apply (I_end (acc ++ a) r s n rest En); rewrite <- E, <- !app_assoc; reflexivity]. rewrite app_length. destruct a; [contradiction|]. cbn. lia.
      - inversion St; subst.
        + eexists. split; [|apply I_exit; rewrite <- E, <- !app_assoc; reflexivity]. rewrite app_length. destruct a; [contradiction|]. cbn. lia.
        + exists 0. split; [lia|]. rewrite app_nil_r in E. rewrite result_answer, E. apply I_done.
      - inversion St.
    Qed.
    Definition inv (a : state S) : Prop := exists n, before n a \/ after n a.
    Lemma inv_steps a b : inv a -> steps a b -> inv b.
    Proof.
      intros I St. induction St as [a|a b c _ IH St]; [exact I|]. destruct (IH I) as (n & [J|J]).
      - destruct (before_step _ _ _ J St) as [(m & _ & K)|(m & K)]; exists m; auto.
      - destruct (after_step _ _ _ J St) as (m & _ & K). exists m. auto.
    Qed.
    Lemma inv_go a : inv a -> 0 < cap -> outcome (s_parent a) = None -> exists b, step a b.
    Proof.
      intros (n & [I|I]) Cp O; [destruct I as [l s i r Hb E|l s i Hb E]|destruct I as [acc o s n rest En E|acc o E|]; [| |discriminate O]].
      - destruct (RF l s Hb) as (k & A & _). destruct r as [|x r]; [eexists; apply St_close|]. destruct i as [|y i].
        + eexists. apply St_write. exact Cp.
        + eexists. apply (St_cread S act cap dec _ [y] i s k [] A). discriminate.
      - destruct (RF l s Hb) as (k & A & _). destruct i as [|y i]; [eexists; apply (St_ceof S act cap dec [] s k [] A)|eexists; apply (St_cread S act cap dec _ [y] i s k [] A); discriminate].
      - destruct o as [|x o]; [|eexists; apply (St_pread S act cap dec acc [] _ [x] o); discriminate].
        inversion En as [? ? A|? ? ? ? ? ? A|? ? ? ? ? A]; subst; [eexists; apply (St_cexit S act cap dec _ _ _ _ _ A)|eexists; apply (St_cwrite S act cap dec _ _ _ _ _ _ A); exact Cp|eexists; apply (St_ceof S act cap dec acc _ _ [] A)].
      - destruct o as [|x o]; [eexists; apply St_done|eexists; apply (St_pread S act cap dec acc [] _ [x] o); discriminate].
    Qed.
    Lemma after_acc n : forall a, after n a -> Acc (fun y x => step x y) a.
    Proof.
      induction n as [n IH] using (well_founded_induction lt_wf). intros a I. constructor. intros b St. destruct (after_step _ _ _ I St) as (m & L & J). apply (IH m L b J).
    Qed.
    Lemma before_acc n : forall a, before n a -> Acc (fun y x => step x y) a.
    Proof.
      induction n as [n IH] using (well_founded_induction lt_wf). intros a I. constructor. intros b St. destruct (before_step _ _ _ I St) as [(m & L & J)|(m & J)]; [apply (IH m L b J)|apply (after_acc m b J)].
    Qed.
  End Batch.
  (** The filter cannot run forever, nobody waits for the other forever and the result
      is the output. *)
  Theorem C89_reads_first f B bytes s0 : reads_first act f B -> B [] s0 -> 0 < cap ->
    Acc (fun y x => step x y) (started bytes s0) /\
    forall b, steps (started bytes s0) b ->
      (outcome (s_parent b) = None -> exists c, step b c) /\
      (forall g, outcome (s_parent b) = Some g -> g = answer dec (fst (f bytes)) (snd (f bytes))).
  Proof.
    intros RF B0 Cp. assert (I0 : before B bytes (2 * List.length bytes + 0 + 1) (started bytes s0)) by (apply (I_write B bytes [] s0 [] bytes B0); reflexivity).
    split; [apply (before_acc f B RF bytes _ _ I0)|]. intros b St. assert (I : inv f B bytes b) by (apply (inv_steps f B RF bytes (started bytes s0)); [eexists; left; exact I0|exact St]).
    split; [intros O; apply (inv_go f B RF bytes b I Cp O)|]. intros g O. clear St. destruct I as (n & I). revert O. destruct I as [[l s i r Hb E|l s i Hb E]|[acc o s m rest En E|acc o E|]]; cbn; intros O; try discriminate O. injection O as <-. reflexivity.
  Qed.
  Lemma acc_outcome a : Acc (fun y x => step x y) a -> (forall b, steps a b -> outcome (s_parent b) = None -> exists c, step b c) ->
    exists b g, steps a b /\ outcome (s_parent b) = Some g.
  Proof.
    intros A. induction A as [a _ IH]. intros G. destruct (outcome (s_parent a)) as [g|] eqn:O; [exists a, g; split; [apply Steps_nil|exact O]|].
    destruct (G a (Steps_nil S act cap dec a) O) as (b & Sb).
    assert (Cons : forall c, steps b c -> steps a c).
    { intros c Sc. induction Sc as [b|b c d _ IHc Sd]; [apply (Steps_cons S act cap dec a a b (Steps_nil S act cap dec a) Sb)|apply (Steps_cons S act cap dec a c d (IHc Sb) Sd)]. }
    destruct (IH b Sb) as (c & g & Sc & Oc); [intros c Sc; apply G, Cons, Sc|]. exists c, g. split; [apply Cons, Sc|exact Oc].
  Qed.
  Theorem C89_answer encode f B s0 t g : reads_first act f B -> B [] s0 -> 0 < cap ->
    (filterMediawikiMarkdown S act cap dec encode s0 t g <->
     g = match encode t with Raise e => ([], Some e) | Ok bytes => answer dec (fst (f bytes)) (snd (f bytes)) end).
  Proof.
    intros RF B0 Cp. unfold filterMediawikiMarkdown. destruct (encode t) as [bytes|e]; [|reflexivity].
    destruct (C89_reads_first f B bytes s0 RF B0 Cp) as [A H]. split.
    - intros (fin & St & O). apply (proj2 (H fin St) g O).
    - intros ->. destruct (acc_outcome _ A (fun b St => proj1 (H b St))) as (b & g & St & O). exists b. split; [exact St|]. rewrite O. f_equal. apply (proj2 (H b St) g O).
  Qed.
End Proofs.

(** * Other converters *)
(** cat: bytes are written as soon as they are read. *)
Inductive cat := CatRead | CatWrite (l : list N) | CatExit.
Definition cat_act (s : cat) : action cat :=
  match s with
  | CatRead => ARead (fun a => match a with [] => CatExit | _ => CatWrite a end)
  | CatWrite [] => ARead (fun a => match a with [] => CatExit | _ => CatWrite a end)
  | CatWrite (b :: l) => AWrite b (CatWrite l)
  | CatExit => AExit 0
  end.
Lemma steps_trans {S} act cap dec a b c : steps S act cap dec a b -> steps S act cap dec b c -> steps S act cap dec a c.
Proof. intros H G. induction G as [|b c d _ IH St]; [exact H|]. apply (Steps_cons S act cap dec a c d (IH H) St). Qed.
Lemma one {S} act cap dec a b : step S act cap dec a b -> steps S act cap dec a b.
Proof. intros H. apply (Steps_cons S act cap dec a a b (Steps_nil S act cap dec a) H). Qed.
Definition cat_idle (s : cat) : Prop := s = CatRead \/ s = CatWrite [].
Lemma cat_idle_act s : cat_idle s -> cat_act s = ARead (fun a => match a with [] => CatExit | _ => CatWrite a end).
Proof. intros [->| ->]; reflexivity. Qed.
Lemma cat_through cap dec l : 0 < cap -> forall s r o, cat_idle s -> List.length o + List.length l <= cap ->
  exists s', cat_idle s' /\ steps cat cat_act cap dec (mkS (PWrite (l ++ r)) [] (Alive s) o) (mkS (PWrite r) [] (Alive s') (o ++ l)).
Proof.
  intros Cp. induction l as [|x l IH]; intros s r o Id L.
  - exists s. split; [exact Id|]. rewrite app_nil_r. apply Steps_nil.
  - cbn [List.length] in L. destruct (IH (CatWrite []) r (o ++ [x]) (or_intror eq_refl)) as (s' & Id' & St); [rewrite app_length; cbn; lia|].
    exists s'. split; [exact Id'|]. replace (o ++ x :: l) with ((o ++ [x]) ++ l) by (rewrite <- app_assoc; reflexivity).
    eapply steps_trans; [|exact St]. cbn [app]. eapply steps_trans; [apply one, St_write; exact Cp|]. cbn [app].
    eapply steps_trans; [apply one, (St_cread cat cat_act cap dec _ [x] [] s _ o (cat_idle_act s Id)); discriminate|].
    apply one, (St_cwrite cat cat_act cap dec _ _ (CatWrite [x]) x (CatWrite [])); [reflexivity|lia].
Qed.
Lemma fill cap dec s o l : forall r i, List.length i + List.length l <= cap -> steps cat cat_act cap dec (mkS (PWrite (l ++ r)) i (Alive s) o) (mkS (PWrite r) (i ++ l) (Alive s) o).
Proof.
  induction l as [|x l IH]; intros r i L; [rewrite app_nil_r; apply Steps_nil|]. cbn [List.length] in L.
  eapply steps_trans; [apply one; cbn [app]; apply St_write; lia|]. replace (i ++ x :: l) with ((i ++ [x]) ++ l) by (rewrite <- app_assoc; reflexivity). apply IH. rewrite app_length. cbn. lia.
Qed.
Lemma stuck_cat cap dec r i x l o : r <> [] -> List.length i = cap -> List.length o = cap -> stuck cat_act cap dec (mkS (PWrite r) i (Alive (CatWrite (x :: l))) o).
Proof.
  intros Nr Li Lo b Hb. inversion Hb; subst; try discriminate; try lia; try contradiction.
Qed.
(** Both wait forever if a text does not fit into the pipes and the converter starts to
    write before it has read everything. *)
Theorem C89_needs_reading_first cap dec bytes : 0 < cap -> 2 * cap + 1 < List.length bytes ->
  exists b, steps cat cat_act cap dec (started bytes CatRead) b /\ outcome (s_parent b) = None /\ stuck cat_act cap dec b.
Proof.
  intros Cp L.
  destruct (cat_through cap dec (firstn cap bytes) Cp CatRead (skipn cap bytes) [] (or_introl eq_refl)) as (s & Id & St); [rewrite firstn_length; cbn; lia|].
  rewrite firstn_skipn in St. cbn [app] in St. set (o := firstn cap bytes) in *. assert (Lo : List.length o = cap) by (unfold o; rewrite firstn_length; lia).
  assert (Lr : cap + 1 < List.length (skipn cap bytes)) by (rewrite skipn_length; lia). destruct (skipn cap bytes) as [|x r]; [cbn in Lr; lia|]. cbn [List.length] in Lr.
  exists (mkS (PWrite (skipn cap r)) (firstn cap r) (Alive (CatWrite [x])) o). split; [|split; [reflexivity|]].
  - eapply steps_trans; [exact St|]. eapply steps_trans; [apply one, St_write; exact Cp|]. cbn [app].
    eapply steps_trans; [apply one, (St_cread cat cat_act cap dec _ [x] [] s _ o (cat_idle_act s Id)); discriminate|].
    pose proof (fill cap dec (CatWrite [x]) o (firstn cap r) (skipn cap r) []) as F. rewrite firstn_skipn in F. apply F. rewrite firstn_length. cbn. lia.
  - apply stuck_cat; [|rewrite firstn_length; lia|exact Lo]. intros E. assert (E' : List.length (skipn cap r) = 0) by (rewrite E; reflexivity). rewrite skipn_length in E'. lia.
Qed.

(** A converter that exits without reading: it depends on the order in which the
    processes run if this is an exception or passed over. *)
Definition exit_act (c : Z) (s : unit) : action unit := AExit c.
Theorem C89_needs_reading cap dec bytes c : c <> 0%Z -> 0 < List.length bytes <= cap ->
  (exists b, steps unit (exit_act c) cap dec (started bytes tt) b /\ outcome (s_parent b) = Some ([], Some PlainException)) /\
  (exists b, steps unit (exit_act c) cap dec (started bytes tt) b /\ outcome (s_parent b) = Some (answer dec [] c)).
Proof.
  intros Nc L. split.
  - destruct bytes as [|x r]; [cbn in L; lia|]. eexists. split; [eapply Steps_cons; [apply one, (St_cexit unit (exit_act c) cap dec _ _ tt c _ eq_refl)|apply St_broken]|reflexivity].
  - assert (F : forall l r i, List.length i + List.length l <= cap -> steps unit (exit_act c) cap dec (mkS (PWrite (l ++ r)) i (Alive tt) []) (mkS (PWrite r) (i ++ l) (Alive tt) [])).
    { induction l as [|x l IH]; intros r i Li; [rewrite app_nil_r; apply Steps_nil|]. cbn [List.length] in Li.
      eapply steps_trans; [apply one; cbn [app]; apply St_write; lia|]. replace (i ++ x :: l) with ((i ++ [x]) ++ l) by (rewrite <- app_assoc; reflexivity). apply IH. rewrite app_length. cbn. lia. }
    specialize (F bytes [] [] ltac:(cbn; lia)). rewrite app_nil_r in F. eexists. split.
    + eapply Steps_cons; [|apply St_done]. eapply Steps_cons; [|apply St_close]. eapply Steps_cons; [exact F|apply (St_cexit unit (exit_act c) cap dec _ _ tt c _ eq_refl)].
    + cbn [s_parent outcome]. rewrite result_answer. reflexivity.
Qed.

(** * Examples *)
(** A converter that turns its input around *)
Inductive rv := RvRead (l : list N) | RvWrite (l : list N).
Definition rv_act (s : rv) : action rv :=
  match s with
  | RvRead l => ARead (fun a => match a with [] => RvWrite (rev l) | _ => RvRead (l ++ a) end)
  | RvWrite [] => AExit 0
  | RvWrite (b :: l) => AWrite b (RvWrite l)
  end.
Example C89_reads_first_example : reads_first rv_act (fun l => (rev l, 0%Z)) (fun l s => s = RvRead l).
Proof.
  intros l s ->. eexists. split; [reflexivity|]. split; [intros [|x a] N; [contradiction|reflexivity]|]. cbn.
  induction (rev l) as [|x r IH]; [apply Cv_exit; reflexivity|]. apply (Cv_write rv rv_act _ _ x (RvWrite r)); [reflexivity|exact IH].
Qed.
Example C89_rv_example : Acc (fun y x => step rv rv_act 2 Ok x y) (started [1; 2; 3; 4; 5]%N (RvRead [])) /\
  forall b, steps rv rv_act 2 Ok (started [1; 2; 3; 4; 5]%N (RvRead [])) b -> forall g, outcome (s_parent b) = Some g -> g = ([[5; 4; 3; 2; 1]%N], None).
Proof.
  destruct (C89_reads_first rv rv_act 2 Ok _ _ [1; 2; 3; 4; 5]%N (RvRead []) C89_reads_first_example eq_refl ltac:(lia)) as [A H]. split; [exact A|]. intros b St g O. apply (proj2 (H b St) g O).
Qed.

Print Assumptions C89_yielded.
Print Assumptions C89_fits.
Print Assumptions C89_reads_first.
Print Assumptions C89_answer.
Print Assumptions C89_needs_reading_first.
Print Assumptions C89_needs_reading.
