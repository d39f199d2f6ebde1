(** Which recorded triads can be scored, for the shipped data (C32). *)
From Coq Require Import QArith.
From Verif Require Import Base KeyboardModel LayoutModel LayoutSpec LayoutProofs WriterModel WriterSpec WriterProofs
  StatsModel StatsSpec StatsProofs MergeProofs StatsAll CarpalxModel CarpalxSpec CarpalxProofs
  DataKeyboard DataLayouts DataFingermap DataModels ShippedProofs.
Close Scope Q_scope.
Open Scope string_scope.
Open Scope list_scope.

(** keyboard.py:134-137 for buttons named by strings *)
Definition rows_table (rows : list (list kbutton * list kbutton)) : list (string * nat) :=
  fold_left (fun d ir => fold_left (fun d b => dset d (kb_name b) (fst ir)) (fst (snd ir) ++ snd (snd ir)) d)
            (combine (seq 0 (List.length rows)) rows) [].

(** Carpalx objects as created by the command line tools: a shipped model and a
    writer with the default finger map on the shipped keyboard. *)
Definition shipped_model {nm} (p : params nm) (it : comb -> list string) : model nm :=
  mkModel nm p defaultFingermap (rows_table ibmpc105) it.

Lemma mapM_ok_ex {A B} (f : A -> res B) l : (forall x, In x l -> exists y, f x = Ok y) -> exists r, mapM f l = Ok r.
Proof.
  induction l as [|x l IH]; cbn [mapM]; intros E; [eauto|].
  destruct (E x) as [y ->]; [left; auto|]. cbn [bind]. destruct IH as [r ->]; [intros; apply E; right; auto|].
  cbn [bind]. eauto.
Qed.

(** In every number format the effort of a triad is defined if all its buttons
    have an effort, a penalty and a finger. *)
Definition priced {nm} (m : model nm) (b : string) : bool := is_ok (baselineOf m b) && is_ok (penalty m b).
Lemma priced_base {nm} (m : model nm) b : priced m b = true -> exists x, baselineOf m b = Ok x.
Proof. unfold priced. destruct (baselineOf m b); [eauto|discriminate]. Qed.
Lemma priced_pen {nm} (m : model nm) b : priced m b = true -> exists x, penalty m b = Ok x.
Proof. unfold priced. destruct (penalty m b); [eauto|]. rewrite andb_false_r. discriminate. Qed.
Lemma priced_finger {nm} (m : model nm) b : priced m b = true ->
  exists g r, dget (mfm m) b = Some g /\ dget (mrows m) b = Some r.
Proof.
  intros P. destruct (priced_pen _ _ P) as [x E]. unfold penalty, handFinger, getRow, dgetM in E.
  destruct (dget (mfm m) b) as [g|]; [|discriminate]. cbn [of_opt bind] in E.
  destruct (dget (mrows m) b) as [r|]; [eauto|discriminate].
Qed.
Lemma base_defined {nm} (m : model nm) f c0 c1 c2 :
  (forall c b, In c [c0; c1; c2] -> In b (miter m c) -> exists x, f b = Ok x) ->
  exists q, baseEffort m [c0; c1; c2] f = Ok q.
Proof.
  intros A. unfold baseEffort.
  destruct (mapM_ok_ex (combEffort m f) [c0; c1; c2]) as [r E].
  { intros c I. unfold combEffort. destruct (mapM_ok_ex f (miter m c)) as [l ->]; [eauto|]. cbn [bind]. eauto. }
  rewrite E. cbn [bind]. apply mapM_Ok_inv, Forall2_length in E.
  destruct r as [|b0 [|b1 [|b2 r]]]; cbn in E; try discriminate. eauto.
Qed.
Lemma product_nonempty {A} (ls : list (list A)) : (forall l, In l ls -> l <> []) -> product ls <> [].
Proof.
  induction ls as [|l ls IH]; cbn [product]; intros E; [discriminate|].
  destruct l as [|x l]; [exfalso; apply (E []); [left; auto|auto]|].
  cbn [flat_map]. destruct (product ls) eqn:P; [exfalso; apply IH; [intros; apply E; right; auto|auto]|]. discriminate.
Qed.
Lemma product_In {A} (ls : list (list A)) t : In t (product ls) -> Forall2 (fun x l => In x l) t ls.
Proof.
  revert t; induction ls as [|l ls IH]; intros t; cbn [product].
  - intros [<-|[]]. constructor.
  - rewrite in_flat_map. intros (x & Hx & I). apply in_map_iff in I. destruct I as (t' & <- & I). constructor; auto.
Qed.
Lemma triad_defined {nm} (m : model nm) c0 c1 c2 :
  (forall c, In c [c0; c1; c2] -> miter m c <> [] /\ forall b, In b (miter m c) -> priced m b = true) ->
  exists e, triadCompute m [c0; c1; c2] = Ok e.
Proof.
  intros K. unfold triadCompute.
  destruct (base_defined m (baselineOf m) c0 c1 c2) as [eb ->].
  { intros c b I P. apply priced_base. apply (K c I). exact P. }
  destruct (base_defined m (penalty m) c0 c1 c2) as [ep ->].
  { intros c b I P. apply priced_pen. apply (K c I). exact P. }
  cbn [bind]. destruct (mapM_ok_ex (strokeEffort m) (product (map (miter m) [c0; c1; c2]))) as [ss E].
  { intros t I. apply product_In in I. cbn [map] in I.
    inversion I as [|x ? t1 ? Hx I1]; subst. inversion I1 as [|y ? t2 ? Hy I2]; subst.
    inversion I2 as [|z ? t3 ? Hz I3]; subst. inversion I3; subst.
    destruct (priced_finger m x) as (gx & rx & X1 & X2); [apply (K c0); cbn; auto|].
    destruct (priced_finger m y) as (gy & ry & Y1 & Y2); [apply (K c1); cbn; auto|].
    destruct (priced_finger m z) as (gz & rz & Z1 & Z2); [apply (K c2); cbn; auto|].
    destruct (finger_pos_ex gx) as [i Pi]. destruct (finger_pos_ex gy) as [j Pj]. destruct (finger_pos_ex gz) as [k Pk].
    destruct (strokePath_ok m x y z _ _ _ _ _ _ i j k X1 Y1 Z1 X2 Y2 Z2 Pi Pj Pk) as (h & r & f & Es & _).
    unfold strokeEffort. rewrite Es. cbn [bind]. eauto. }
  rewrite E. cbn [bind].
  assert (N : ss <> []).
  { intros ->. apply mapM_Ok_inv, Forall2_length in E.
    assert (P : product (map (miter m) [c0; c1; c2]) <> []).
    { apply product_nonempty. intros l I. apply in_map_iff in I. destruct I as (c & <- & I). apply (K c I). }
    destruct (product (map (miter m) [c0; c1; c2])); [congruence|discriminate]. }
  destruct ss as [|s ss]; [congruence|]. cbn [min_py bind]. eauto.
Qed.

(** Finite checks: every modifier and every counted button with a text other
    than U+0008 is priced by both models. *)
Definition priced_names : list string := dkeys (baseline (@mod01 Qnum)).
Lemma priced_names_ok {nm} it b : In b priced_names ->
  priced (shipped_model (@mod01 nm) it) b = true /\ priced (shipped_model (@salvo nm) it) b = true.
Proof.
  assert (E : forallb (fun b => priced (shipped_model (@mod01 nm) it) b && priced (shipped_model (@salvo nm) it) b) priced_names = true)
    by (vm_compute; reflexivity).
  rewrite forallb_forall in E. intros I. apply andb_true_iff, (E b I).
Qed.
Definition layer_priced (l : layer) : bool :=
  forallb (fun md => inclb (elems md) priced_names) (lmods l) &&
  forallb (fun bv => match snd bv with
                     | CText v => mem (fst bv) priced_names || mem (fst bv) (elems spaces) || mem 8%N v
                     | COther => true end) (llayout l).
Lemma shipped_priced d : In d all_layouts -> forall l, In l (shipped_layers d) -> layer_priced l = true.
Proof.
  assert (E : forallb (fun d => forallb layer_priced (shipped_layers d)) all_layouts = true) by (vm_compute; reflexivity).
  rewrite forallb_forall in E. intros I. specialize (E d I). rewrite forallb_forall in E. exact E.
Qed.

(** Windows and stretches *)
Lemma windows_3 {A} (l : list A) w : In w (windows l) -> exists x y z, w = [x; y; z] /\ In x l /\ In y l /\ In z l.
Proof.
  induction l as [|x l IH]; cbn [windows]; [intros []|].
  destruct l as [|y [|z l]]; [intros []|intros []|].
  intros [<-|I].
  - exists x, y, z. cbn. auto 10.
  - destruct (IH I) as (a & b & c & -> & Ha & Hb & Hc). exists a, b, c. cbn in *. tauto.
Qed.
Lemma stretches_in es s c : In s (stretches es) -> In c s -> In (SComb c) es.
Proof.
  revert s; induction es as [|e es IH]; intros s; cbn [stretches].
  - intros [<-|[]] [].
  - destruct e as [c'|ch|]; cbn [In].
    + destruct (stretches es) as [|s' ss] eqn:E.
      * intros [<-|[]] [<-|[]]. auto.
      * intros [<-|I] J; [destruct J as [<-|J]; [auto|right; apply (IH s'); cbn; auto]|right; apply (IH s); cbn; auto].
    + intros [<-|I] J; [destruct J|right; eauto].
    + intros [<-|I] J; [destruct J|right; eauto].
Qed.
Lemma sumZ_count_pos {A B} `{EqDec B} (f : A -> list B) (l : list A) x :
  sumZ (fun s => count x (f s)) l <> 0%Z -> exists s, In s l /\ In x (f s).
Proof.
  induction l as [|s l IH]; [cbn; congruence|]. unfold sumZ; cbn [map fold_right]. fold (sumZ (fun s => count x (f s)) l).
  intros N. destruct (Z.eq_dec (count x (f s)) 0) as [E|E].
  - destruct IH as (s' & I & J); [unfold sumZ in *; cbn in *; lia|]. exists s'. cbn; auto.
  - exists s. split; [left; auto|]. apply count_pos. pose proof (count_nonneg x (f s)). lia.
Qed.

Lemma typed_events d last t : In d all_layouts -> forall c,
  In (SComb c) (map ev_obj (fst (fst (type_text defaultFingermap (layout_new (shipped_layers d)) last t)))) ->
  exists l b md v, In l (shipped_layers d) /\ In (b, CText v) (llayout l) /\ In md (lmods l) /\
    c = mkComb md (frozenset [b]) /\ incl v t.
Proof.
  intros Hd c. destruct (shipped_facts _ Hd) as (A & B & C & D).
  destruct (bufferLen_attained (shipped_layers d)) as [E|(x & Hx & _)].
  - rewrite type_null by exact E. intros [].
  - destruct (@type_coverage defaultFingermap text read_full (fun t => t) (shipped_layers d)) with (fuel := S (List.length t)) (r := t) (buf := @nil N) (last := last)
      as (es & l & E & Hcat & Hw); eauto using full_reads_file, read_full_ok; [cbn; lia|].
    unfold type_text. rewrite E. cbn [fst]. intros I. apply in_map_iff in I. destruct I as (e & Ee & I).
    rewrite Forall_forall in Hw. specialize (Hw e I). destruct e as [m c'|ch]; cbn in Ee; [|discriminate].
    injection Ee as ->. apply in_ways in Hw. destruct Hw as (la & b & md & Hla & Hb & Hm & ->).
    exists la, b, md, m. repeat (split; [assumption || reflexivity|]). intros y Hy.
    cbn [app] in Hcat. rewrite <- Hcat. apply in_concat. exists m. split; [|exact Hy].
    apply in_map_iff. exists (EMatch m (mkComb md (frozenset [b]))). auto.
Qed.
