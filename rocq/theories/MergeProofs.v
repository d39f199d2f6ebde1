(** Merging statistics. *)
From Verif Require Import Base LayoutModel WriterModel StatsModel StatsSpec StatsProofs.
From Coq Require Import Permutation.
Set Implicit Arguments.
Open Scope list_scope.

Lemma oadd_None_r x : oadd x None = x.
Proof. destruct x; reflexivity. Qed.
Lemma oadd_comm x y : oadd x y = oadd y x.
Proof. destruct x, y; cbn; f_equal; lia. Qed.
Lemma oadd_assoc x y z : oadd x (oadd y z) = oadd (oadd x y) z.
Proof. destruct x, y, z; cbn; f_equal; lia. Qed.
Lemma osum_app {A} (f : A -> option Z) l m : osum f (l ++ m) = oadd (osum f l) (osum f m).
Proof. induction l as [|x l IH]; cbn; [reflexivity|]. fold (osum f (l ++ m)) (osum f l). rewrite IH. apply oadd_assoc. Qed.
Lemma osum_Permutation {A} (f : A -> option Z) l m : Permutation l m -> osum f l = osum f m.
Proof.
  induction 1; cbn; [reflexivity|..]; fold (osum f) in *.
  - fold (osum f l) (osum f l'). congruence.
  - fold (osum f l). rewrite !oadd_assoc, (oadd_comm (f y)). reflexivity.
  - congruence.
Qed.
Lemma osum_cons {A} (f : A -> option Z) x l : osum f (x :: l) = oadd (f x) (osum f l).
Proof. reflexivity. Qed.

Section Dict.
  Context {K V : Type} `{EqDec K}.
  Definition omerge (f : V -> V -> V) (x y : option V) : option V :=
    match x, y with Some a, Some b => Some (f a b) | Some a, None => Some a | None, y => y end.
  Lemma updateDictOp_get (f : V -> V -> V) a b k : dict_wf b ->
    dget (updateDictOp f a b) k = omerge f (dget a k) (dget b k).
  Proof.
    unfold updateDictOp. revert a; induction b as [|[k' v] b IH]; intros a Hw; cbn [fold_left fst snd].
    - destruct (dget a k); reflexivity.
    - unfold dict_wf in Hw. cbn in Hw. inversion Hw as [|? ? Hn Hb]; subst. rewrite IH by exact Hb. cbn [dget].
      destruct (eqb_spec k k') as [E|E].
      + rewrite E. apply dget_None in Hn. rewrite Hn. destruct (dget a k') as [x|]; rewrite dget_dset_same; reflexivity.
      + destruct (dget a k') as [x|]; rewrite dget_dset; destruct (eqb_spec k k'); congruence.
  Qed.
  Lemma updateDictOp_wf (f : V -> V -> V) a b : dict_wf a -> dict_wf (updateDictOp f a b).
  Proof.
    unfold updateDictOp. revert a; induction b as [|[k' v] b IH]; intros a Hw; cbn [fold_left fst snd]; [exact Hw|].
    apply IH. destruct (dget a k'); apply dset_wf, Hw.
  Qed.
  Lemma Forall_dset (P : V -> Prop) d k v : Forall (fun kv => P (snd kv)) d -> P v -> Forall (fun kv => P (snd kv)) (dset d k v).
  Proof.
    intros F Hv. induction F as [|[k' v'] d Hx F IH]; cbn; [constructor; [exact Hv|constructor]|].
    destruct (eqb k k'); constructor; auto.
  Qed.
  Lemma Forall_dget (P : V -> Prop) (d : list (K * V)) k v : Forall (fun kv => P (snd kv)) d -> dget d k = Some v -> P v.
  Proof. intros F E. apply dget_In in E. rewrite Forall_forall in F. exact (F _ E). Qed.
  Lemma updateDictOp_Forall (P : V -> Prop) (f : V -> V -> V) a b : (forall x y, P x -> P y -> P (f x y)) ->
    Forall (fun kv => P (snd kv)) a -> Forall (fun kv => P (snd kv)) b -> Forall (fun kv => P (snd kv)) (updateDictOp f a b).
  Proof.
    intros Hf Ha Hb. unfold updateDictOp. revert a Ha; induction Hb as [|[k' v] b Hv Hb IH]; intros a Ha; cbn [fold_left fst snd]; [exact Ha|].
    cbn in Hv. apply IH. destruct (dget a k') as [x|] eqn:E; apply Forall_dset; auto. apply Hf; [|exact Hv]. eapply Forall_dget; eassumption.
  Qed.
End Dict.

Lemma updateCounter_get {K} `{EqDec K} (a b : list (K * Z)) k : dict_wf b -> dget (updateCounter a b) k = oadd (dget a k) (dget b k).
Proof. apply updateDictOp_get. Qed.
Lemma updateCounter_wf {K} `{EqDec K} (a b : list (K * Z)) : dict_wf a -> dict_wf (updateCounter a b).
Proof. apply updateDictOp_wf. Qed.
Lemma updateNested_get {K L} `{EqDec K} `{EqDec L} (a b : list (K * list (L * Z))) k n : nested_wf b ->
  nlook (updateNested a b) k n = oadd (nlook a k n) (nlook b k n).
Proof.
  intros [Hw Hi]. unfold nlook, updateNested. rewrite updateDictOp_get by exact Hw.
  destruct (dget a k) as [i|], (dget b k) as [j|] eqn:E; cbn [omerge]; [|symmetry; apply oadd_None_r|reflexivity..].
  apply updateCounter_get. apply (@Forall_dget K (list (L * Z)) _ (fun i => dict_wf i) b k); assumption.
Qed.
Lemma updateNested_wf {K L} `{EqDec K} `{EqDec L} (a b : list (K * list (L * Z))) : nested_wf a -> nested_wf b -> nested_wf (updateNested a b).
Proof.
  intros [Aw Ai] [Bw Bi]. split; [apply updateDictOp_wf, Aw|]. apply (@updateDictOp_Forall K (list (L * Z)) _ (fun i => dict_wf i)); auto.
  intros x y Hx _. apply updateCounter_wf, Hx.
Qed.

Lemma update_recorded a b x : stats_wf b -> is_finger x = false -> recorded (stats_update a b) x = oadd (recorded a x) (recorded b x).
Proof.
  intros (B1 & B2 & B3 & B4 & B5 & B6 & B7) Hx. destruct x; cbn; try discriminate; try (apply updateCounter_get; assumption).
  apply updateNested_get, B4.
Qed.
Lemma update_finger a b hf n : recorded (stats_update a b) (CFinger hf n) = recorded a (CFinger hf n).
Proof. reflexivity. Qed.
Lemma update_wf a b : stats_wf a -> stats_wf b -> stats_wf (stats_update a b).
Proof.
  intros (A1 & A2 & A3 & A4 & A5 & A6 & A7) (B1 & B2 & B3 & B4 & B5 & B6 & B7).
  repeat split; cbn; try (apply updateCounter_wf; assumption); try (apply updateNested_wf; assumption); try apply A5.
Qed.
Lemma fold_recorded l a x : Forall stats_wf l -> is_finger x = false ->
  recorded (fold_left stats_update l a) x = oadd (recorded a x) (osum (fun s => recorded s x) l).
Proof.
  intros F Hx. revert a; induction F as [|b l Hb F IH]; intros a; cbn [fold_left].
  - symmetry. apply oadd_None_r.
  - rewrite IH, update_recorded by assumption. rewrite osum_cons. symmetry. apply oadd_assoc.
Qed.
Lemma fold_finger l a hf n : recorded (fold_left stats_update l a) (CFinger hf n) = recorded a (CFinger hf n).
Proof. revert a; induction l as [|b l IH]; intros a; cbn [fold_left]; [reflexivity|]. rewrite IH. apply update_finger. Qed.
Lemma fold_wf l a : stats_wf a -> Forall stats_wf l -> stats_wf (fold_left stats_update l a).
Proof. intros Ha F. revert a Ha; induction F as [|b l Hb F IH]; intros a Ha; cbn [fold_left]; [exact Ha|]. apply IH, update_wf; assumption. Qed.

Lemma nodup_hands : dict_wf (r_hand runlen_init).
Proof. apply nodupb_NoDup. vm_compute. reflexivity. Qed.
Lemma nodup_fingers : dict_wf (r_finger runlen_init).
Proof. apply nodupb_NoDup. vm_compute. reflexivity. Qed.
Lemma init_nested {K L} `{EqDec K} `{EqDec L} (keys : list K) : Forall (fun ki : K * list (L * Z) => dict_wf (snd ki)) (map (fun x => (x, [])) keys).
Proof. induction keys; constructor; [constructor|assumption]. Qed.
Lemma makeCombined_wf kb c : makeCombined kb = Ok c -> stats_wf c /\ forall x, recorded c x = None.
Proof.
  unfold makeCombined, triads_init. destruct (mapM _ _) as [ign|]; cbn [bind]; [|discriminate]. intros E; inversion E; subst. split.
  - split; [constructor|]. split; [constructor|]. split; [constructor|]. split; [split; [apply nodup_hands|apply init_nested]|].
    split; [split; [apply nodup_fingers|apply init_nested]|]. split; constructor.
  - intros [b|c|ch|h n|hf n|t|w]; try reflexivity.
    + destruct h; reflexivity.
    + destruct hf as [[] []]; reflexivity.
Qed.
Lemma combine_recorded kb l c x : Forall stats_wf l -> combine_stats kb l = Ok c -> is_finger x = false ->
  recorded c x = osum (fun s => recorded s x) l.
Proof.
  intros F. unfold combine_stats. destruct (makeCombined kb) as [c0|] eqn:E; cbn [bind]; [|discriminate]. intros X Hx; inversion X; subst.
  rewrite fold_recorded by assumption. destruct (makeCombined_wf _ E) as [_ ->]. reflexivity.
Qed.
Lemma combine_wf kb l c : Forall stats_wf l -> combine_stats kb l = Ok c -> stats_wf c.
Proof.
  intros F. unfold combine_stats. destruct (makeCombined kb) as [c0|] eqn:E; cbn [bind]; [|discriminate]. intros X; inversion X; subst.
  apply fold_wf; [|exact F]. apply (makeCombined_wf _ E).
Qed.
Lemma combine_finger kb l c hf n : combine_stats kb l = Ok c -> recorded c (CFinger hf n) = None.
Proof.
  unfold combine_stats. destruct (makeCombined kb) as [c0|] eqn:E; cbn [bind]; [|discriminate]. intros X; inversion X; subst.
  rewrite fold_finger. apply (makeCombined_wf _ E).
Qed.
Lemma combine_any kb l l' c : combine_stats kb l = Ok c -> exists c', combine_stats kb l' = Ok c'.
Proof. unfold combine_stats. destruct (makeCombined kb); cbn [bind]; [eauto|discriminate]. Qed.
Lemma combine_groups kb gs cs c x : Forall (Forall stats_wf) gs -> mapM (combine_stats kb) gs = Ok cs -> combine_stats kb cs = Ok c -> is_finger x = false ->
  recorded c x = osum (fun s => recorded s x) (concat gs).
Proof.
  intros F E Ec Hx. apply mapM_Ok_inv in E.
  assert (Hcs : Forall stats_wf cs).
  { clear Ec. induction E; inversion F; subst; constructor; eauto using combine_wf. }
  rewrite (@combine_recorded kb cs c x Hcs Ec Hx). clear Ec Hcs. induction E as [|g c0 gs cs Eg E IH]; [reflexivity|]. inversion F; subst.
  cbn [concat]. rewrite osum_app, osum_cons, IH by assumption. rewrite (@combine_recorded kb g c0 x) by assumption. reflexivity.
Qed.

(** Processing keeps dictionaries well formed. *)
Lemma fold_cinc_wf {K} `{EqDec K} l (d : list (K * Z)) : dict_wf d -> dict_wf (fold_left cinc l d).
Proof. revert d; induction l as [|x l IH]; intros d Hd; cbn; [exact Hd|]. apply IH, cadd_wf, Hd. Qed.
Lemma nested_inc_wf {K L} `{EqDec K} `{EqDec L} (d : list (K * list (L * Z))) k n d' : nested_wf d -> nested_inc d k n = Ok d' -> nested_wf d'.
Proof.
  intros [Hw Hi]. unfold nested_inc, dgetM. destruct (dget d k) as [i|] eqn:E; cbn [of_opt bind]; [|discriminate]. intros X; inversion X; subst.
  split; [apply dset_wf, Hw|]. apply (@Forall_dset K (list (L * Z)) _ (fun i => dict_wf i)); [exact Hi|]. apply cadd_wf.
  apply (@Forall_dget K (list (L * Z)) _ (fun i => dict_wf i) d k); assumption.
Qed.
Lemma words_fold_wf letter t s : dict_wf (w_words s) -> dict_wf (w_words (fold_left (words_char letter) t s)).
Proof.
  revert s; induction t as [|c t IH]; intros s Hs; cbn [fold_left]; [exact Hs|]. apply IH. unfold words_char.
  destruct (letter c); [exact Hs|]. destruct (w_cur s); [exact Hs|]. apply cadd_wf, Hs.
Qed.
Lemma process_wf fm letter L s e s' : stats_wf s -> stats_process fm letter L s e = Ok s' -> stats_wf s'.
Proof.
  intros (A1 & A2 & A3 & A4 & A5 & A6 & A7). unfold stats_process.
  destruct (simple_process (a_simple s) e) as [sa|] eqn:E1; cbn [bind]; [|discriminate].
  destruct (runlen_process fm (a_runlen s) e) as [sr|] eqn:E2; cbn [bind]; [|discriminate].
  destruct (triads_process (a_triads s) e) as [st|] eqn:E3; cbn [bind]; [|discriminate].
  destruct (words_process letter L (a_words s) e) as [sw|] eqn:E4; cbn [bind]; [|discriminate].
  intros X; inversion X; subst; clear X. unfold stats_wf. cbn [a_simple a_runlen a_triads a_words].
  assert (S1 : dict_wf (s_buttons sa) /\ dict_wf (s_combs sa) /\ dict_wf (s_unknown sa)).
  { destruct e as [c|ch|]; cbn in E1; inversion E1; subst; cbn [s_buttons s_combs s_unknown]; (split; [|split]); try assumption; try (apply fold_cinc_wf; assumption); apply cadd_wf; assumption. }
  assert (S2 : nested_wf (r_hand sr) /\ nested_wf (r_finger sr)).
  { destruct e as [c|ch|]; cbn [runlen_process] in E2; [|inversion E2; subst; cbn; auto|discriminate].
    destruct (the_button c) as [b|]; cbn [bind] in E2; [|discriminate].
    destruct (getHandFinger fm b) as [[h f]|]; cbn [bind] in E2; [|discriminate].
    match type of E2 with (do _ <- ?m; _) = _ => destruct m as [[d n]|] eqn:Eh; cbn [bind] in E2; [|discriminate] end.
    match type of E2 with (do _ <- ?m; _) = _ => destruct m as [[d2 n2]|] eqn:Ef; cbn [bind] in E2; [|discriminate] end.
    inversion E2; subst; cbn [r_hand r_finger fst snd]. split.
    - destruct (r_lastHand (a_runlen s)) as [l|]; [|inversion Eh; subst; exact A4]. destruct (eqb h l); [inversion Eh; subst; exact A4|].
      destruct (nested_inc (r_hand (a_runlen s)) l _) as [d'|] eqn:En; cbn [bind] in Eh; inversion Eh; subst. eapply nested_inc_wf; eassumption.
    - destruct (r_lastFinger (a_runlen s)) as [l|]; [|inversion Ef; subst; exact A5]. destruct (eqb (h, f) l); [inversion Ef; subst; exact A5|].
      destruct (nested_inc (r_finger (a_runlen s)) _ _) as [d'|] eqn:En; cbn [bind] in Ef; inversion Ef; subst. eapply nested_inc_wf; eassumption. }
  assert (S3 : dict_wf (t_triads st)).
  { destruct e as [c|ch|]; cbn [triads_process] in E3; [|inversion E3; subst; exact A6|discriminate].
    destruct (the_button c) as [b|]; cbn [bind] in E3; [|discriminate]. destruct (mem b _); [inversion E3; subst; exact A6|].
    match type of E3 with (do _ <- ?m; _) = _ => destruct m as [t2|]; cbn [bind] in E3; [|discriminate] end.
    inversion E3; subst; cbn. destruct (Nat.eqb (length t2) 3); [apply cadd_wf|]; exact A6. }
  assert (S4 : dict_wf (w_words sw)).
  { destruct e as [c|ch|]; cbn [words_process] in E4; [|inversion E4; subst; exact A7|discriminate].
    destruct (getText L c) as [[t|]|]; cbn [bind] in E4; [|discriminate..]. inversion E4; subst. apply words_fold_wf, A7. }
  tauto.
Qed.
Lemma processed_wf fm letter L es s s' : stats_wf s -> foldM (stats_process fm letter L) es s = Ok s' -> stats_wf s'.
Proof.
  revert s; induction es as [|e es IH]; intros s Hs E; cbn [foldM] in E; [inversion E; subst; exact Hs|].
  destruct (stats_process fm letter L s e) as [s1|] eqn:E1; cbn [bind] in E; [|discriminate]. eapply IH; [|exact E]. eapply process_wf; eassumption.
Qed.

(** Processing events after merging. *)
Definition sums {K} `{EqDec K} (d a b : list (K * Z)) : Prop := forall k, dget d k = oadd (dget a k) (dget b k).
Lemma sums_cinc {K} `{EqDec K} (d a b : list (K * Z)) k : sums d a b -> sums (cinc d k) (cinc a k) b.
Proof.
  intros S x. unfold cinc, cadd. rewrite !dget_dset. destruct (eqb_spec x k) as [->|]; [|apply S].
  unfold cget. rewrite S. destruct (dget a k), (dget b k); cbn [oadd]; f_equal; lia.
Qed.
Lemma sums_fold {K} `{EqDec K} l (d a b : list (K * Z)) : sums d a b -> sums (fold_left cinc l d) (fold_left cinc l a) b.
Proof. revert d a; induction l as [|x l IH]; intros d a S; cbn; [exact S|]. apply IH, sums_cinc, S. Qed.
Definition nsums {K L} `{EqDec K} `{EqDec L} (d a b : list (K * list (L * Z))) : Prop :=
  (forall k n, nlook d k n = oadd (nlook a k n) (nlook b k n)) /\ forall k, In k (dkeys a) -> In k (dkeys d).
Lemma nsums_inc {K L} `{EqDec K} `{EqDec L} (d a b : list (K * list (L * Z))) k n a' : nsums d a b -> nested_inc a k n = Ok a' ->
  exists d', nested_inc d k n = Ok d' /\ nsums d' a' b.
Proof.
  intros [S I]. unfold nested_inc, dgetM. destruct (dget a k) as [i|] eqn:E; cbn [of_opt bind]; [|discriminate]. intros X.
  assert (a' = dset a k (cinc i n)) as -> by congruence. clear X.
  assert (Hk : In k (dkeys d)) by (apply I, dget_key; eauto). apply dget_key in Hk. destruct Hk as [j Ej]. rewrite Ej. cbn [of_opt bind].
  eexists. split; [reflexivity|]. split.
  - intros k' n'. specialize (S k' n'). unfold nlook in *. rewrite !dget_dset. destruct (eqb_spec k' k) as [->|]; [|exact S].
    rewrite E, Ej in S. unfold cinc, cadd. rewrite !dget_dset. destruct (eqb_spec n' n) as [->|]; [|exact S].
    unfold cget. rewrite S. destruct (dget i n), (dget b k) as [bb|]; cbn [oadd]; try destruct (dget bb n); cbn [oadd]; f_equal; lia.
  - intros x. rewrite !In_dkeys_dset. intros [->|Hx]; auto.
Qed.
(** [s] continues [a] with the counters of [b] added. *)
Definition ahead (s a b : allstats) : Prop :=
  (sums (s_buttons (a_simple s)) (s_buttons (a_simple a)) (s_buttons (a_simple b)) /\
   sums (s_combs (a_simple s)) (s_combs (a_simple a)) (s_combs (a_simple b)) /\
   sums (s_unknown (a_simple s)) (s_unknown (a_simple a)) (s_unknown (a_simple b))) /\
  (nsums (r_hand (a_runlen s)) (r_hand (a_runlen a)) (r_hand (a_runlen b)) /\
   r_lastHand (a_runlen s) = r_lastHand (a_runlen a) /\ r_curHand (a_runlen s) = r_curHand (a_runlen a) /\
   r_lastFinger (a_runlen s) = r_lastFinger (a_runlen a) /\ r_curFinger (a_runlen s) = r_curFinger (a_runlen a) /\
   r_finger (a_runlen s) = r_finger (a_runlen a)) /\
  (sums (t_triads (a_triads s)) (t_triads (a_triads a)) (t_triads (a_triads b)) /\
   t_cur (a_triads s) = t_cur (a_triads a) /\ t_ignored (a_triads s) = t_ignored (a_triads a)) /\
  (sums (w_words (a_words s)) (w_words (a_words a)) (w_words (a_words b)) /\ w_cur (a_words s) = w_cur (a_words a)).
Lemma ahead_update a b : stats_wf b -> ahead (stats_update a b) a b.
Proof.
  intros (B1 & B2 & B3 & B4 & B5 & B6 & B7). split; [|split; [|split]]; cbn.
  - split; [|split]; intros k; apply updateCounter_get; assumption.
  - split; [|auto 10]. split; [intros k n; apply updateNested_get; exact B4|]. intros k Hk. apply dget_key in Hk. destruct Hk as [v Ev].
    apply dget_key. unfold updateNested. rewrite updateDictOp_get by apply B4. rewrite Ev. destruct (dget (r_hand (a_runlen b)) k); eexists; reflexivity.
  - split; [|auto]. intros k; apply updateCounter_get; assumption.
  - split; [|auto]. intros k; apply updateCounter_get; assumption.
Qed.
Lemma ahead_words letter t s a (b : words) : sums (w_words s) (w_words a) (w_words b) -> w_cur s = w_cur a ->
  sums (w_words (fold_left (words_char letter) t s)) (w_words (fold_left (words_char letter) t a)) (w_words b) /\
  w_cur (fold_left (words_char letter) t s) = w_cur (fold_left (words_char letter) t a).
Proof.
  revert s a; induction t as [|c t IH]; intros s a S E; cbn [fold_left]; [auto|]. unfold words_char at 2 4 6 8. rewrite E.
  apply IH; destruct (letter c); cbn; try assumption; try congruence; destruct (w_cur a) eqn:W; cbn; try assumption; try congruence. apply sums_cinc, S.
Qed.
Lemma ahead_process fm letter L s a b e a' : ahead s a b -> stats_process fm letter L a e = Ok a' ->
  exists s', stats_process fm letter L s e = Ok s' /\ ahead s' a' b.
Proof.
  intros ((S1 & S2 & S3) & (H1 & H2 & H3 & H4 & H5 & H6) & (T1 & T2 & T3) & (W1 & W2)) E. unfold stats_process in E |- *.
  destruct (simple_process (a_simple a) e) as [sa|] eqn:E1; cbn [bind] in E; [|discriminate].
  destruct (runlen_process fm (a_runlen a) e) as [sr|] eqn:E2; cbn [bind] in E; [|discriminate].
  destruct (triads_process (a_triads a) e) as [st|] eqn:E3; cbn [bind] in E; [|discriminate].
  destruct (words_process letter L (a_words a) e) as [sw|] eqn:E4; cbn [bind] in E; [|discriminate].
  assert (a' = mkStats sa sr st sw) as -> by congruence. clear E.
  assert (P1 : exists x, simple_process (a_simple s) e = Ok x /\ sums (s_buttons x) (s_buttons sa) (s_buttons (a_simple b)) /\
     sums (s_combs x) (s_combs sa) (s_combs (a_simple b)) /\ sums (s_unknown x) (s_unknown sa) (s_unknown (a_simple b))).
  { destruct e as [c|ch|]; cbn [simple_process] in E1 |- *; [..|discriminate]; eexists; (split; [reflexivity|]).
    - assert (sa = mkSimple (fold_left cinc (comb_iter c) (s_buttons (a_simple a))) (cinc (s_combs (a_simple a)) c) (s_unknown (a_simple a))) as -> by congruence.
      cbn [s_buttons s_combs s_unknown]. split; [apply sums_fold, S1|]. split; [apply sums_cinc, S2|exact S3].
    - assert (sa = mkSimple (s_buttons (a_simple a)) (s_combs (a_simple a)) (cinc (s_unknown (a_simple a)) ch)) as -> by congruence.
      cbn [s_buttons s_combs s_unknown]. split; [exact S1|]. split; [exact S2|apply sums_cinc, S3]. }
  assert (P2 : exists x, runlen_process fm (a_runlen s) e = Ok x /\ nsums (r_hand x) (r_hand sr) (r_hand (a_runlen b)) /\
     r_lastHand x = r_lastHand sr /\ r_curHand x = r_curHand sr /\ r_lastFinger x = r_lastFinger sr /\ r_curFinger x = r_curFinger sr /\ r_finger x = r_finger sr).
  { clear - E2 H1 H2 H3 H4 H5 H6. destruct e as [c|ch|]; cbn [runlen_process] in E2 |- *; [..|discriminate].
    - destruct (the_button c) as [bt|]; cbn [bind] in *; [|discriminate].
      destruct (getHandFinger fm bt) as [[h f]|]; cbn [bind] in *; [|discriminate]. rewrite H2, H3, H4, H5, H6.
      match type of E2 with (do _ <- ?m; _) = _ => destruct m as [[d n]|] eqn:Eh; cbn [bind] in E2; [|discriminate] end.
      match type of E2 with (do _ <- ?m; _) = _ => destruct m as [[d2 n2]|] eqn:Ef; cbn [bind] in E2; [|discriminate] end.
      assert (sr = mkRunlen (Some h) d (S n) (Some (h, f)) d2 (S n2)) as -> by (cbn [fst snd] in E2; congruence). clear E2.
      assert (G : exists d', (match r_lastHand (a_runlen a) with
              | Some l => if eqb h l then Ok (r_hand (a_runlen s), r_curHand (a_runlen a))
                          else do d <- nested_inc (r_hand (a_runlen s)) l (r_curHand (a_runlen a)); Ok (d, 0)
              | None => Ok (r_hand (a_runlen s), r_curHand (a_runlen a))
              end) = Ok (d', n) /\ nsums d' d (r_hand (a_runlen b))).
      { destruct (r_lastHand (a_runlen a)) as [l|]; [|inversion Eh; subst; eauto]. destruct (eqb h l); [inversion Eh; subst; eauto|].
        destruct (nested_inc (r_hand (a_runlen a)) l _) as [d0|] eqn:En; cbn [bind] in Eh; [|discriminate].
        destruct (nsums_inc _ _ H1 En) as (d1 & -> & Hd). cbn [bind]. assert (d0 = d /\ 0 = n) as [-> <-] by (split; congruence). eauto. }
      destruct G as (d' & -> & G). cbn [bind fst snd]. eexists. split; [reflexivity|]. cbn. auto 10.
    - eexists. split; [reflexivity|]. inversion E2; subst; cbn. auto 10. }
  assert (P3 : exists x, triads_process (a_triads s) e = Ok x /\ sums (t_triads x) (t_triads st) (t_triads (a_triads b)) /\ t_cur x = t_cur st /\ t_ignored x = t_ignored st).
  { clear - E3 T1 T2 T3. destruct e as [c|ch|]; cbn [triads_process] in E3 |- *; [..|discriminate].
    - destruct (the_button c) as [bt|]; cbn [bind] in *; [|discriminate]. rewrite T3. destruct (mem bt _).
      + inversion E3; subst. eauto.
      + rewrite T2. match type of E3 with (do _ <- ?m; _) = _ => destruct m as [t2|]; cbn [bind] in *; [|discriminate] end.
        inversion E3; subst. eexists; split; [reflexivity|]. cbn. split; [|auto]. destruct (Nat.eqb (length t2) 3); [apply sums_cinc|]; exact T1.
    - inversion E3; subst. eexists; split; [reflexivity|]. cbn. auto. }
  assert (P4 : exists x, words_process letter L (a_words s) e = Ok x /\ sums (w_words x) (w_words sw) (w_words (a_words b)) /\ w_cur x = w_cur sw).
  { clear - E4 W1 W2. destruct e as [c|ch|]; cbn [words_process] in E4 |- *; [..|discriminate].
    - destruct (getText L c) as [[t|]|]; cbn [bind] in *; [|discriminate..]. inversion E4; subst. eexists; split; [reflexivity|]. apply ahead_words; assumption.
    - inversion E4; subst. eexists; split; [reflexivity|]. cbn. auto. }
  destruct P1 as (x1 & -> & Q1). destruct P2 as (x2 & -> & Q2). destruct P3 as (x3 & -> & Q3). destruct P4 as (x4 & -> & Q4). cbn [bind].
  eexists. split; [reflexivity|]. split; [exact Q1|]. split; [exact Q2|]. split; assumption.
Qed.
Lemma ahead_run fm letter L es : forall s a b a', ahead s a b -> foldM (stats_process fm letter L) es a = Ok a' ->
  exists s', foldM (stats_process fm letter L) es s = Ok s' /\ ahead s' a' b.
Proof.
  induction es as [|e es IH]; intros s a b a' H E; cbn [foldM] in E |- *.
  - inversion E; subst. eauto.
  - destruct (stats_process fm letter L a e) as [a1|] eqn:E1; cbn [bind] in E; [|discriminate].
    destruct (ahead_process _ _ _ _ H E1) as (s1 & -> & H1). cbn [bind]. exact (IH _ _ _ _ H1 E).
Qed.
Lemma ahead_recorded s a b x : ahead s a b -> is_finger x = false -> recorded s x = oadd (recorded a x) (recorded b x).
Proof.
  intros ((S1 & S2 & S3) & (H1 & _) & (T1 & _) & (W1 & _)) Hx. destruct x; cbn; try discriminate; auto. apply H1.
Qed.
Lemma continue_recorded fm letter L es a b a' : stats_wf b -> foldM (stats_process fm letter L) es a = Ok a' ->
  exists s, foldM (stats_process fm letter L) es (stats_update a b) = Ok s /\
    (forall x, is_finger x = false -> recorded s x = oadd (recorded a' x) (recorded b x)) /\
    forall hf n, recorded s (CFinger hf n) = recorded a' (CFinger hf n).
Proof.
  intros Hb E. destruct (ahead_run _ _ _ _ (ahead_update a Hb) E) as (s & Es & H). exists s. split; [exact Es|]. split.
  - intros x. apply ahead_recorded, H.
  - intros hf n. cbn. destruct H as (_ & (_ & _ & _ & _ & _ & ->) & _). reflexivity.
Qed.
