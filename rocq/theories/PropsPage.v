(** C83: the report page. *)
From Coq Require Import QArith Lqa.
From Verif Require Import Base LayoutModel LayoutSpec LayoutProofs WriterModel WriterSpec WriterProofs StatsModel StatsSpec CarpalxSpec.
From Verif Require Import DataLayouts DataFingermap ShippedProofs StatsProofs StatsAll CarpalxShipped PlotModel PlotSpec PlotProofs PropsTools.
From Verif Require Import ReportModel PropsFraction PropsWriter PageModel.
Close Scope Q_scope.
Close Scope Z_scope.
Open Scope string_scope.
Open Scope list_scope.
Unset Implicit Arguments.

(** The finger was used *)
Definition pressed (fm : list (string * (direction * finger))) (buttons : list (string * Z)) (hf : direction * finger) : Prop :=
  exists b, In b (dkeys buttons) /\ dget fm b = Some hf.
Definition boxes := list (direction * Q * list (finger * Q * Q)).
Definition qtotal {A} (f : A -> Q) (l : list A) : Q := fold_right (fun x s => (f x + s)%Q) 0%Q l.
Definition fname (x : finger * Q * Q) : finger := fst (fst x).
Definition width (x : finger * Q * Q) : Q := snd (fst x).
Definition share (x : finger * Q * Q) : Q := snd x.
Definition percent (a b : Z) : Q := (100 * inject_Z a / inject_Z b)%Q.

Lemma pressed_ex fm buttons hf : pressed fm buttons hf <-> existsb (by_finger fm hf) (dkeys buttons) = true.
Proof.
  rewrite existsb_exists. unfold pressed, by_finger. split; intros (b & I & E); exists b; split; trivial.
  - rewrite E. destruct (eq_dec hf hf); congruence.
  - destruct (dget fm b) as [hf'|]; [|discriminate E]. destruct (eq_dec hf hf'); congruence.
Qed.
Lemma finger_Ok fm L buttons combs r h f : layoutstats fm L buttons combs = Ok r ->
  finger_box r h f = if existsb (by_finger fm (h, f)) (dkeys buttons)
    then if (amount (by_hand fm h) buttons =? 0)%Z then Raise ZeroDivisionError
         else Ok (f, inject_Z (amount (by_finger fm (h, f)) buttons) / inject_Z (amount (by_hand fm h) buttons) * 100,
                  inject_Z (amount (by_finger fm (h, f)) buttons) / inject_Z (ls_presses r) * 100)%Q
    else Raise UndefinedError.
Proof.
  intros E. destruct (C58_hands _ _ _ _ _ E) as (_ & Nz & _ & Hh & Hf & _). unfold finger_box. rewrite Hf, Hh.
  destruct (existsb _ _); [|reflexivity]. cbn [of_opt bind]. rewrite truediv_ok by exact Nz. cbn [bind].
  unfold truediv. destruct (Z.eqb_spec (amount (by_hand fm h) buttons) 0); reflexivity.
Qed.
Lemma mapM_exists {A B} (f : A -> res B) l : (exists ys, mapM f l = Ok ys) <-> forall x, In x l -> exists y, f x = Ok y.
Proof.
  split.
  - intros [ys E]. apply mapM_Ok_inv in E. induction E as [|x y l ys H _ IH]; [intros x []|]. intros x' [<-|I]; eauto.
  - induction l as [|x l IH]; intros H; [exists []; reflexivity|].
    destruct (H x (or_introl eq_refl)) as [y Ey]. destruct IH as [ys Eys]; [intros; apply H; right; assumption|].
    exists (y :: ys). cbn [mapM]. rewrite Ey. cbn [bind]. rewrite Eys. reflexivity.
Qed.
Lemma in_order h f : In f (fingerOrder h).
Proof. destruct h, f; cbn; auto 10. Qed.

(** The table can be made iff all ten fingers and both hands were used. *)
Theorem C83_succeeds fm L buttons combs r : layoutstats fm L buttons combs = Ok r ->
  ((exists t, fingerhandstats r = Ok t) <->
   (forall hf, pressed fm buttons hf) /\ forall h, amount (by_hand fm h) buttons <> 0%Z).
Proof.
  intros E. pose proof (C58_hands _ _ _ _ _ E) as (_ & Nz & _ & Hh & _).
  assert (H1 : forall h, (exists y, hand_box r h = Ok y) <-> (forall f, pressed fm buttons (h, f)) /\ amount (by_hand fm h) buttons <> 0%Z).
  { intros h. transitivity (exists fs, mapM (finger_box r h) (fingerOrder h) = Ok fs).
    - unfold hand_box. rewrite Hh. cbn [of_opt bind]. rewrite truediv_ok by exact Nz. cbn [bind]. split.
      + intros [y Ey]. destruct (mapM _ _) as [fs|]; [eauto|discriminate Ey].
      + intros [fs ->]. eexists; reflexivity.
    - rewrite mapM_exists. split.
      + intros H. split.
        * intros f. destruct (H f (in_order h f)) as [y Ey]. rewrite (finger_Ok _ _ _ _ _ _ _ E) in Ey. apply pressed_ex.
          destruct (existsb _ _); [reflexivity|discriminate Ey].
        * destruct (H LITTLE (in_order h LITTLE)) as [y Ey]. rewrite (finger_Ok _ _ _ _ _ _ _ E) in Ey.
          destruct (existsb _ _); [|discriminate Ey]. destruct (Z.eqb_spec (amount (by_hand fm h) buttons) 0); [discriminate Ey|assumption].
      + intros [H N] f _. rewrite (finger_Ok _ _ _ _ _ _ _ E). rewrite (proj1 (pressed_ex fm buttons (h, f)) (H f)).
        destruct (Z.eqb_spec (amount (by_hand fm h) buttons) 0); [contradiction|eauto]. }
  unfold fingerhandstats. rewrite mapM_exists. split.
  - intros H. split.
    + intros [h f]. apply (H1 h). apply H. destruct h; cbn; auto.
    + intros h. apply (H1 h). apply H. destruct h; cbn; auto.
  - intros [P A] h _. apply H1. auto.
Qed.
(** Statistics of typing count something: then fingers decide, and a missing one
    is an undefined value. *)
Theorem C83_fingers fm L buttons combs r : layoutstats fm L buttons combs = Ok r -> all_counts (fun v => 0 < v)%Z buttons ->
  ((exists t, fingerhandstats r = Ok t) <-> forall hf, pressed fm buttons hf) /\
  ((exists hf, ~ pressed fm buttons hf) <-> fingerhandstats r = Raise UndefinedError).
Proof.
  intros E Pos.
  assert (Pa : forall h f, pressed fm buttons (h, f) -> amount (by_hand fm h) buttons <> 0%Z).
  { intros h f (b & I & G). unfold amount, all_counts in *. clear -I G Pos.
    assert (Nn : forall d : list (string * Z), Forall (fun kv => (0 < snd kv)%Z) d -> (0 <= sumZ (fun kv => if by_hand fm h (fst kv) then snd kv else 0%Z) d)%Z).
    { induction 1 as [|kv d H _ IH]; [cbn; lia|]. rewrite sumZ_cons. destruct (by_hand _ _ _); lia. }
    induction Pos as [|[b' v] d Hv Hd IH]; [destruct I|]. rewrite sumZ_cons. cbn [fst snd] in *. destruct I as [I|I].
    - cbn [fst] in I. subst b'. unfold by_hand at 1. rewrite G. destruct (eq_dec h h); [|congruence]. pose proof (Nn _ Hd). lia.
    - specialize (IH I). pose proof (Nn _ Hd). destruct (by_hand fm h b'); lia. }
  assert (A : (exists t, fingerhandstats r = Ok t) <-> forall hf, pressed fm buttons hf).
  { rewrite (C83_succeeds _ _ _ _ _ E). split; [tauto|]. intros H. split; [exact H|]. intros h. apply (Pa h LITTLE), H. }
  split; [exact A|]. split.
  - intros [hf N]. assert (Nt : ~ exists t, fingerhandstats r = Ok t) by (rewrite A; intros H; apply N, H).
    pose proof (C58_hands _ _ _ _ _ E) as (_ & Nz & _ & Hh & _).
    destruct (fingerhandstats r) as [t|e] eqn:F; [destruct Nt; eauto|]. f_equal. unfold fingerhandstats in F.
    apply mapM_Raise_inv in F as (h & _ & F). unfold hand_box in F. rewrite Hh in F. cbn [of_opt bind] in F.
    rewrite truediv_ok in F by exact Nz. cbn [bind] in F.
    destruct (mapM (finger_box r h) (fingerOrder h)) as [fs|e'] eqn:M; cbn [bind] in F; [discriminate F|].
    injection F as ->. apply mapM_Raise_inv in M as (f & _ & M). rewrite (finger_Ok _ _ _ _ _ _ _ E) in M.
    destruct (existsb (by_finger fm (h, f)) (dkeys buttons)) eqn:X; [|congruence].
    apply pressed_ex in X. apply Pa in X. destruct (Z.eqb_spec (amount (by_hand fm h) buttons) 0); [contradiction|discriminate M].
  - intros F. assert (D : forall hf, pressed fm buttons hf \/ ~ pressed fm buttons hf).
    { intros hf. destruct (existsb (by_finger fm hf) (dkeys buttons)) eqn:X; [left; apply pressed_ex, X|right].
      rewrite pressed_ex, X. discriminate. }
    assert (All : (exists hf, ~ pressed fm buttons hf) \/ forall hf, pressed fm buttons hf).
    { assert (G : forall l : list (direction * finger), (exists hf, In hf l /\ ~ pressed fm buttons hf) \/ forall hf, In hf l -> pressed fm buttons hf).
      { induction l as [|x l IH]; [right; intros ? []|]. destruct (D x) as [P|N]; [|left; exists x; split; [left|]; trivial].
        destruct IH as [(y & I & N)|P']; [left; exists y; split; [right|]; assumption|right]. intros hf [<-|I]; auto. }
      destruct (G (flat_map (fun h => map (pair h) FingerType) Direction)) as [(x & _ & N)|P]; [left; eauto|right].
      intros [h f]. apply P. destruct h, f; cbn; auto 20. }
    destruct All as [|P]; [assumption|]. apply A in P as [t P]. congruence.
Qed.

(** Hands from left to right, fingers from the left little finger to the right
    one; widths and shares add up. *)
Theorem C83_table fm L buttons combs r t : layoutstats fm L buttons combs = Ok r -> fingerhandstats r = Ok t ->
  exists lp ls rp rs, t = [(LEFT, lp, ls); (RIGHT, rp, rs)] /\
    map fname ls = [LITTLE; RING; MIDDLE; INDEX; THUMB] /\ map fname rs = [THUMB; INDEX; MIDDLE; RING; LITTLE] /\
    (lp == percent (amount (by_hand fm LEFT) buttons) (sumZ snd buttons) /\
     rp == percent (amount (by_hand fm RIGHT) buttons) (sumZ snd buttons) /\ lp + rp == 100)%Q /\
    (forall h p fs x, In (h, p, fs) t -> In x fs ->
       share x == percent (amount (by_finger fm (h, fname x)) buttons) (sumZ snd buttons) /\
       width x == percent (amount (by_finger fm (h, fname x)) buttons) (amount (by_hand fm h) buttons) /\
       share x == width x * p / 100)%Q /\
    (forall h p fs, In (h, p, fs) t -> qtotal width fs == 100 /\ qtotal share fs == p)%Q.
Proof.
  intros E F. destruct (C58_hands _ _ _ _ _ E) as (Ep & Nz & _ & Hh & Hf & Sum & _ & Sf & _).
  assert (Hs : forall h, amount (by_hand fm h) buttons <> 0%Z).
  { apply (C83_succeeds _ _ _ _ _ E). eauto. }
  assert (Pr : forall hf, existsb (by_finger fm hf) (dkeys buttons) = true).
  { intros hf. apply pressed_ex, (C83_succeeds _ _ _ _ _ E). eauto. }
  set (B := fun h f => (f, inject_Z (amount (by_finger fm (h, f)) buttons) / inject_Z (amount (by_hand fm h) buttons) * 100,
                        inject_Z (amount (by_finger fm (h, f)) buttons) / inject_Z (ls_presses r) * 100)%Q).
  assert (EB : forall h f, finger_box r h f = Ok (B h f)).
  { intros h f. rewrite (finger_Ok _ _ _ _ _ _ _ E), Pr. destruct (Z.eqb_spec (amount (by_hand fm h) buttons) 0) as [X|]; [destruct (Hs h X)|reflexivity]. }
  assert (EM : forall h l, mapM (finger_box r h) l = Ok (map (B h) l)).
  { intros h. induction l as [|f l IH]; [reflexivity|]. cbn [mapM map]. rewrite EB. cbn [bind]. rewrite IH. reflexivity. }
  set (P := fun h => (inject_Z (amount (by_hand fm h) buttons) / inject_Z (ls_presses r) * 100)%Q).
  assert (Et : t = [(LEFT, P LEFT, map (B LEFT) FingerType); (RIGHT, P RIGHT, map (B RIGHT) (rev FingerType))]).
  { unfold fingerhandstats, Direction in F. cbn [mapM] in F. unfold hand_box in F. rewrite !Hh in F. cbn [of_opt bind] in F.
    rewrite !truediv_ok in F by exact Nz. cbn [bind] in F. rewrite !EM in F. cbn [bind] in F. injection F as <-. reflexivity. }
  rewrite <- Ep.
  assert (Qp : ~ (inject_Z (ls_presses r) == 0)%Q) by (apply injQ_nz; exact Nz).
  assert (Qh : forall h, ~ (inject_Z (amount (by_hand fm h) buttons) == 0)%Q) by (intros h; apply injQ_nz, Hs).
  assert (In_t : forall h p fs, In (h, p, fs) t -> p = P h /\ fs = map (B h) (fingerOrder h)).
  { rewrite Et. intros h p fs [X|[X|[]]]; injection X as <- <- <-; split; reflexivity. }
  assert (Sh : forall h, (inject_Z (amount (by_hand fm h) buttons) == inject_Z (amount (by_finger fm (h, LITTLE)) buttons) +
    (inject_Z (amount (by_finger fm (h, RING)) buttons) + (inject_Z (amount (by_finger fm (h, MIDDLE)) buttons) +
    (inject_Z (amount (by_finger fm (h, INDEX)) buttons) + inject_Z (amount (by_finger fm (h, THUMB)) buttons)))))%Q).
  { intros h. rewrite (Sf h). rewrite !sumZ_cons. change (sumZ _ []) with 0%Z. rewrite Z.add_0_r, !inject_Z_plus. reflexivity. }
  exists (P LEFT), (map (B LEFT) FingerType), (P RIGHT), (map (B RIGHT) (rev FingerType)).
  split; [exact Et|]. split; [reflexivity|]. split; [reflexivity|]. split; [|split].
  - unfold percent, P. split; [field; exact Qp|]. split; [field; exact Qp|].
    rewrite <- Sum, inject_Z_plus in Qp |- *. field. exact Qp.
  - intros h p fs x I Ix. destruct (In_t _ _ _ I) as [-> ->]. apply in_map_iff in Ix as (f & <- & _).
    unfold share, width, fname, B, P, percent. cbn [fst snd]. specialize (Qh h). repeat split; field; try exact Qp; try exact Qh; split; assumption.
  - intros h p fs I. destruct (In_t _ _ _ I) as [-> ->]. specialize (Sh h). specialize (Qh h).
    unfold P. unfold width, share, B. 
    assert (T : forall g, (qtotal (fun f => g f) (fingerOrder h) == g LITTLE + (g RING + (g MIDDLE + (g INDEX + g THUMB))))%Q).
    { intros g. destruct h; cbn; ring. }
    assert (M : forall (w : finger * Q * Q -> Q) l, qtotal w (map (B h) l) = qtotal (fun f => w (B h f)) l).
    { intros w l. unfold qtotal. induction l as [|f l IH]; [reflexivity|]. cbn [map fold_right]. rewrite IH. reflexivity. }
    unfold width, share, B in M. rewrite !M, !T. cbn [fst snd]. split.
    + rewrite Sh in Qh |- *. field. exact Qh.
    + rewrite Sh. field. exact Qp.
Qed.

(** * Shipped layouts *)
(** Statistics of typing a text from scratch, as lulua-write collects them *)
Definition typing (letter : N -> bool) (d : generic_data) (t : text) : res allstats :=
  do s0 <- makeCombined kb_names;
  foldM (stats_process defaultFingermap letter (layout_new (shipped_layers d)))
    (map ev_obj (fst (fst (type_text defaultFingermap (layout_new (shipped_layers d)) None t)))) s0.
(** lulua-analyze layoutstats and the table made from it *)
Definition table_of (d : generic_data) (s : allstats) : res boxes :=
  do r <- layoutstats defaultFingermap (layout_new (shipped_layers d)) (s_buttons (a_simple s)) (s_combs (a_simple s));
  fingerhandstats r.
(** The tables of the page are those of the shipped layouts, without null. *)
Theorem C83_layouts name : In name tables <-> exists d, In d all_layouts /\ gd_name d = name /\ name <> "null".
Proof.
  split.
  - intros I. assert (F : forallb (fun n => existsb (fun d => eqb (gd_name d) n && negb (eqb n "null")) all_layouts) tables = true) by (vm_compute; reflexivity).
    rewrite forallb_forall in F. specialize (F _ I). apply existsb_exists in F as (d & Id & F). apply andb_true_iff in F as [F1 F2].
    apply (proj1 (eqb_eq _ _)) in F1. apply negb_true_iff in F2. exists d. split; [exact Id|]. split; [exact F1|]. intros X. rewrite X in F2. discriminate F2.
  - intros (d & Id & <- & N). 
    assert (F : forallb (fun d => mem (gd_name d) tables || eqb (gd_name d) "null") all_layouts = true) by (vm_compute; reflexivity).
    rewrite forallb_forall in F. specialize (F _ Id). apply orb_true_iff in F as [F|F]; [apply mem_In, F|]. apply (proj1 (eqb_eq _ _)) in F. contradiction.
Qed.
(** A text using the home row, space, alef and one letter of the third layer of ar-phonetic *)
Definition sample (d : generic_data) : text :=
  flat_map (fun l => flat_map (fun bv => match fst bv, snd bv with String "D" _, CText t => t ++ [32%N] | _, _ => [] end) (llayout l))
    (firstn 1 (shipped_layers d)) ++ [0x627; 32; 0x6D7; 32]%N.
Definition sampled (d : generic_data) : bool :=
  match typing (fun _ => false) d (sample d) with
  | Ok s => match table_of d s with Ok _ => true | Raise _ => false end
  | Raise _ => false
  end.
Lemma all_sampled : forallb (fun d => eqb (gd_name d) "null" || sampled d) all_layouts = true.
Proof. vm_compute. reflexivity. Qed.
(** Every table can be made, given a suitable text *)
Theorem C83_possible d : In d all_layouts -> gd_name d <> "null" ->
  exists t s tab, typing (fun _ => false) d t = Ok s /\ table_of d s = Ok tab.
Proof.
  intros I N. pose proof all_sampled as F. rewrite forallb_forall in F. specialize (F d I). apply orb_true_iff in F as [F|F].
  - apply (proj1 (eqb_eq _ _)) in F. contradiction.
  - unfold sampled in F. exists (sample d). destruct (typing _ _ _) as [s|]; [|discriminate F].
    destruct (table_of d s) as [tab|] eqn:E; [|discriminate F]. exists s, tab. auto.
Qed.

(** What is typed uses as few buttons as possible. *)
Lemma fewest fm ls last t m c c' : length fm < 128 -> layers_ok ls -> fingered fm ls -> prev_fingered fm last ->
  In (EMatch m c) (fst (fst (type_text fm (layout_new ls) last t))) -> In c' (ways ls m) ->
  length (elems (cmod c)) + length (elems (cbtn c)) <= length (elems (cmod c')) + length (elems (cbtn c')).
Proof.
  intros Hs Hok Hf Hp I I'. apply in_split in I as (es1 & es2 & E).
  destruct (@C14_typed fm text read_full ls (S (length t)) t last es1 m c es2 Hs Hok Hf Hp E) as (l1 & l2 & Ew & F1 & F2).
  rewrite Ew in I'. rewrite Forall_forall in F1, F2. unfold lex_lt, criteria in *.
  apply in_app_or in I' as [I'|[<-|I']]; [|lia|].
  - specialize (F1 _ I'). cbn in F1. lia.
  - specialize (F2 _ I'). cbn in F2. lia.
Qed.
(** With ar-phonetic the right thumb is used for AltGr only: its space bar is
    split, and the right half has no space without shift. *)
Definition ph := shipped_layers data_ar_phonetic.
Lemma in_ph : In data_ar_phonetic all_layouts.
Proof. unfold all_layouts. do 10 right. left. reflexivity. Qed.
Definition ph_facts : bool :=
  forallb (fun l => forallb (fun md => negb (mem "Fr_space" (elems md))) (lmods l) &&
    forallb (fun bv => negb (eqb (fst bv) "Fr_space") ||
      (eqb (snd bv) (CText [32%N]) && forallb (fun md => negb (eqb (elems md) [])) (lmods l))) (llayout l)) ph &&
  existsb (fun c => eqb c (mkComb (frozenset []) (frozenset ["Fl_space"]))) (ways ph [32%N]).
Lemma ph_ok : ph_facts = true.
Proof. vm_compute. reflexivity. Qed.
Lemma no_right_space last t e : prev_fingered defaultFingermap last ->
  In e (map ev_obj (fst (fst (type_text defaultFingermap (layout_new ph) last t)))) -> presses "Fr_space" e = 0%Z.
Proof.
  intros Hp I. pose proof in_ph as Id. set (es := fst (fst (type_text defaultFingermap (layout_new ph) last t))) in I. pose proof (eq_refl es) as Ees. unfold es at 2 in Ees. clearbody es.
  destruct (C12_shipped _ Id) as (Hok & Hf & Hs). fold ph in Hok, Hf.
  apply in_map_iff in I as ([m c|ch] & E & I); cbn [ev_obj] in E; subst e; cbn [presses]; [|exact (eq_refl 0%Z)]. rewrite Ees in I. clear es Ees.
  pose proof I as I0. destruct (shipped_facts _ Id) as (A & B & _). fold ph in A, B.
  assert (Hc : In c (ways ph m)).
  { apply in_split in I as (es1 & es2 & E).
    destruct (@C14_typed defaultFingermap text read_full ph (S (length t)) t last es1 m c es2 Hs Hok Hf Hp E) as (l1 & l2 & Ew & _).
    rewrite Ew. apply in_elt. }
  pose proof ph_ok as F. unfold ph_facts in F. apply andb_true_iff in F as [F1 F2]. rewrite forallb_forall in F1.
  apply in_ways in Hc as (la & b & md & Hl & Hb & Hm & ->). specialize (F1 _ Hl). apply andb_true_iff in F1 as [M1 M2].
  rewrite forallb_forall in M1, M2. specialize (M1 _ Hm). apply negb_true_iff in M1. specialize (M2 _ Hb). cbn [fst snd] in M2.
  cbn [cmod cbtn]. rewrite M1. change (elems (frozenset [b])) with [b].
  destruct (mem "Fr_space" [b]) eqn:X; [exfalso|reflexivity].
  apply mem_In in X as [->|[]]. apply orb_true_iff in M2 as [M2|M2]; [rewrite eqb_refl in M2; discriminate M2|].
  apply andb_true_iff in M2 as [M2 M3]. apply (proj1 (eqb_eq _ _)) in M2. injection M2 as ->.
  rewrite forallb_forall in M3. specialize (M3 _ Hm). apply negb_true_iff in M3.
  apply existsb_exists in F2 as (c' & Ic & Ec). apply (proj1 (eqb_eq _ _)) in Ec. subst c'.
  pose proof (@fewest _ _ _ _ _ _ _ Hs Hok Hf Hp I0 Ic) as L. cbn [cmod cbtn] in L.
  change (elems (frozenset ["Fl_space"])) with ["Fl_space"] in L. change (elems (frozenset [])) with (@nil string) in L.
  change (elems (frozenset ["Fr_space"])) with ["Fr_space"] in L. cbn [length] in L.
  destruct (elems md); [discriminate M3|cbn in L; lia].
Qed.
Lemma stats_positive es s0 s letter L : Forall (handled defaultFingermap L) es -> makeCombined kb_names = Ok s0 ->
  foldM (stats_process defaultFingermap letter L) es s0 = Ok s ->
  forall x, recorded s x = nonzero (expected defaultFingermap letter L spaces es x).
Proof.
  intros He E0 E. destruct (@stats_all defaultFingermap letter L kb_names es) as (s0' & s' & E0' & E' & R); [|exact He|].
  - apply inclb_ok. vm_compute. reflexivity.
  - assert (s0' = s0) by congruence. subst s0'. assert (s' = s) by congruence. subst s'. exact R.
Qed.
Lemma presses_nonneg b es : (0 <= sumZ (presses b) es)%Z.
Proof.
  induction es as [|e es IH]; [cbn; lia|]. rewrite sumZ_cons. destruct e; cbn [presses]; try lia.
  destruct (mem b (elems (cmod c))), (mem b (elems (cbtn c))); lia.
Qed.
Lemma typing_positive letter d t s : In d all_layouts -> typing letter d t = Ok s -> all_counts (fun v => 0 < v)%Z (s_buttons (a_simple s)) /\
  forall b, dget (s_buttons (a_simple s)) b =
    nonzero (sumZ (presses b) (map ev_obj (fst (fst (type_text defaultFingermap (layout_new (shipped_layers d)) None t))))).
Proof.
  intros Id E. unfold typing in E. apply bind_inv in E as (s0 & E0 & E).
  destruct (C12_shipped _ Id) as (Hok & Hf & Hs). destruct (shipped_facts _ Id) as (A & B & _).
  pose proof (stats_positive _ _ _ _ _ (@typed_handled _ _ None t Hok A B Hf) E0 E) as R.
  assert (W : stats_wf s) by (eapply MergeProofs.processed_wf; [|exact E]; apply (@MergeProofs.makeCombined_wf _ _ E0)).
  split; [|intros b; exact (R (CButton b))].
  apply Forall_forall. intros [b v] I. cbn [snd]. apply dget_In_iff in I; [|apply W]. specialize (R (CButton b)). cbn [recorded expected] in R.
  rewrite I in R. pose proof (presses_nonneg b (map ev_obj (fst (fst (type_text defaultFingermap (layout_new (shipped_layers d)) None t))))).
  unfold nonzero in R. destruct (Z.eqb_spec (sumZ (presses b) (map ev_obj (fst (fst (type_text defaultFingermap (layout_new (shipped_layers d)) None t))))) 0); [discriminate R|].
  injection R as ->. lia.
Qed.
(** The table of a shipped layout can be made iff all ten fingers were used in typing. *)
Theorem C83_typed letter d t s r : In d all_layouts -> typing letter d t = Ok s ->
  layoutstats defaultFingermap (layout_new (shipped_layers d)) (s_buttons (a_simple s)) (s_combs (a_simple s)) = Ok r ->
  let used hf := exists m c b, In (EMatch m c) (fst (fst (type_text defaultFingermap (layout_new (shipped_layers d)) None t))) /\
    (In b (elems (cmod c)) \/ In b (elems (cbtn c))) /\ dget defaultFingermap b = Some hf in
  ((exists tab, fingerhandstats r = Ok tab) <-> forall hf, used hf) /\
  ((exists hf, ~ used hf) <-> fingerhandstats r = Raise UndefinedError).
Proof.
  intros Id E El used. destruct (typing_positive _ _ _ _ Id E) as [P R].
  destruct (C83_fingers _ _ _ _ _ El P) as [F1 F2].
  assert (U : forall hf, pressed defaultFingermap (s_buttons (a_simple s)) hf <-> used hf).
  { intros hf. unfold pressed, used. set (es := fst (fst (type_text defaultFingermap (layout_new (shipped_layers d)) None t))) in *. clearbody es.
    clear -R. split.
    - intros (b & I & Hb). assert (N : sumZ (presses b) (map ev_obj es) <> 0%Z).
      { intros X. specialize (R b). rewrite X in R. cbn in R. apply dget_None in R. contradiction. }
      clear R I. induction es as [|e es IH]; [destruct N; reflexivity|]. cbn [map] in N. rewrite sumZ_cons in N.
      destruct (Z.eq_dec (presses b (ev_obj e)) 0) as [Z|Z].
      + destruct IH as (m & c & b' & I & H); [lia|]. exists m, c, b'. split; [right; exact I|exact H].
      + destruct e as [m c|ch]; cbn [ev_obj presses] in Z; [|lia]. exists m, c, b. split; [left; reflexivity|]. split; [|exact Hb].
        destruct (mem b (elems (cmod c))) eqn:M; [left; apply mem_In, M|]. destruct (mem b (elems (cbtn c))) eqn:M'; [right; apply mem_In, M'|lia].
    - intros (m & c & b & I & Hb & G). exists b. split; [|exact G]. 
      assert (N : sumZ (presses b) (map ev_obj es) <> 0%Z).
      { pose proof (presses_nonneg b) as Nn. clear R. induction es as [|e es IH]; [destruct I|]. cbn [map]. rewrite sumZ_cons.
        pose proof (Nn (map ev_obj es)). pose proof (Nn [ev_obj e]) as N1. rewrite sumZ_cons in N1. change (sumZ (presses b) []) with 0%Z in N1.
        destruct I as [->|I]; [|specialize (IH I); lia]. cbn [ev_obj presses] in *.
        destruct Hb as [Hb|Hb]; apply mem_In in Hb; rewrite Hb; destruct (mem b (elems (cmod c))), (mem b (elems (cbtn c))); lia. }
      specialize (R b). unfold nonzero in R. destruct (Z.eqb_spec (sumZ (presses b) (map ev_obj es)) 0); [contradiction|].
      assert (X : ~ dget (s_buttons (a_simple s)) b = None) by congruence. rewrite dget_None in X.
      destruct (in_dec string_dec b (dkeys (s_buttons (a_simple s)))); [assumption|contradiction]. }
  split.
  - rewrite F1. split; intros H hf; apply U, H.
  - rewrite <- F2. split; intros [hf H]; exists hf; intros X; apply H, U, X.
Qed.
Theorem C83_phonetic letter t s r : typing letter data_ar_phonetic t = Ok s ->
  layoutstats defaultFingermap (layout_new ph) (s_buttons (a_simple s)) (s_combs (a_simple s)) = Ok r ->
  dget (s_buttons (a_simple s)) "Fr_altgr" = None -> fingerhandstats r = Raise UndefinedError.
Proof.
  intros E El N. pose proof in_ph as Id.
  apply (proj2 (C83_typed _ _ _ _ _ Id E El)). exists (RIGHT, THUMB). intros (m & c & b & I & Hb & G).
  destruct (typing_positive _ _ _ _ Id E) as [_ R].
  assert (Ie : In (SComb c) (map ev_obj (fst (fst (type_text defaultFingermap (layout_new (shipped_layers data_ar_phonetic)) None t))))).
  { apply in_map_iff. exists (EMatch m c). split; [reflexivity|exact I]. }
  assert (B : b = "Fr_space" \/ b = "Fr_altgr").
  { destruct (typed_events _ _ _ Id _ Ie) as (l & b' & md & v & Hl & Hb' & Hm & -> & _). cbn [cmod cbtn] in Hb.
    assert (F : forallb (fun l => forallb (fun b => negb (eqb (dget defaultFingermap b) (Some (RIGHT, THUMB))) || mem b ["Fr_space"; "Fr_altgr"])
      (flat_map elems (lmods l) ++ dkeys (llayout l))) (shipped_layers data_ar_phonetic) = true) by (vm_compute; reflexivity).
    rewrite forallb_forall in F. specialize (F _ Hl). rewrite forallb_forall in F.
    assert (Ib : In b (flat_map elems (lmods l) ++ dkeys (llayout l))).
    { apply in_or_app. destruct Hb as [Hb|Hb]; [left; apply in_flat_map; exists md; split; assumption|right].
      destruct Hb as [<-|[]]. apply (in_map fst _ _ Hb'). }
    specialize (F _ Ib). rewrite G, eqb_refl in F. cbn [negb orb] in F. apply mem_In in F as [<-|[<-|[]]]; [left|right]; reflexivity. }
  destruct B as [->| ->].
  - assert (P : presses "Fr_space" (SComb c) = 0%Z) by (apply (no_right_space None t); [exact Logic.I|exact Ie]).
    cbn [presses] in P. destruct Hb as [Hb|Hb]; apply mem_In in Hb; rewrite Hb in P;
      destruct (mem _ _) in P; discriminate P || (destruct (mem _ _) in P; discriminate P).
  - specialize (R "Fr_altgr"). rewrite N in R. unfold nonzero in R.
    destruct (Z.eqb_spec (sumZ (presses "Fr_altgr") (map ev_obj (fst (fst (type_text defaultFingermap (layout_new (shipped_layers data_ar_phonetic)) None t))))) 0) as [Z|Z]; [|discriminate R].
    revert Z. apply in_split in Ie as (l1 & l2 & ->). 
    assert (Sa : forall a b, sumZ (presses "Fr_altgr") (a ++ b) = (sumZ (presses "Fr_altgr") a + sumZ (presses "Fr_altgr") b)%Z).
    { intros a b. induction a as [|x a IH]; [reflexivity|]. cbn [app]. rewrite !sumZ_cons, IH. lia. }
    rewrite Sa, sumZ_cons. pose proof (presses_nonneg "Fr_altgr" l1). pose proof (presses_nonneg "Fr_altgr" l2). cbn [presses].
    destruct Hb as [Hb|Hb]; apply mem_In in Hb; rewrite Hb; [destruct (mem "Fr_altgr" (elems (cbtn c)))|destruct (mem "Fr_altgr" (elems (cmod c)))]; lia.
Qed.
(** Ordinary text does not use AltGr *)
Example C83_phonetic_example :
  match typing (fun _ => false) data_ar_phonetic (firstn 24 (sample data_ar_phonetic) ++ [0x627]%N) with
  | Ok s => match layoutstats defaultFingermap (layout_new ph) (s_buttons (a_simple s)) (s_combs (a_simple s)) with
            | Ok r => dget (s_buttons (a_simple s)) "Fr_altgr" = None /\ dget (ls_fingers r) (LEFT, THUMB) <> None
            | Raise _ => False
            end
  | Raise _ => False
  end.
Proof. vm_compute. split; [reflexivity|intros X; discriminate X]. Qed.
Example C83_example :
  match typing (fun _ => false) data_ar_lulua (sample data_ar_lulua) with
  | Ok s => match table_of data_ar_lulua s with
            | Ok t => map (fun x => (fst (fst x), map fname (snd x))) t = [(LEFT, FingerType); (RIGHT, rev FingerType)]
            | Raise _ => False
            end
  | Raise _ => False
  end.
Proof. vm_compute. reflexivity. Qed.

(** * Totals and the whole page *)
(** The totals of the page are those of the merged statistics of all corpora. *)
Theorem C83_totals l c kb : combine_stats kb l = Ok c ->
  corpustotal (corpus (map metadata l)) = Ok (snd (corpusStats c), fst (corpusStats c)).
Proof.
  intros E. rewrite (C61_merged _ _ _ E). cbn [fst snd]. clear E.
  assert (C : corpus (map metadata l) = map (fun s => Some (corpusStats s)) l).
  { unfold corpus. induction l as [|s l IH]; [reflexivity|]. cbn [map flat_map metadata app]. rewrite IH. reflexivity. }
  rewrite C. clear C. unfold corpustotal.
  assert (M : forall g : Z * Z -> Z, mapM (fun d => do x <- of_opt KeyError d; Ok (g x)) (map (fun s => Some (corpusStats s)) l) = Ok (map (fun s => g (corpusStats s)) l)).
  { intros g. induction l as [|s l IH]; [reflexivity|]. cbn [map mapM of_opt bind]. rewrite IH. reflexivity. }
  rewrite !M. cbn [bind].
  assert (Z : forall g : allstats -> Z, zsum (map g l) = sumZ g l).
  { intros g. clear. transitivity (zsum (dvals (map (fun s => (tt, g s)) l))); [unfold dvals; rewrite map_map; reflexivity|].
    rewrite zsum_dvals. induction l as [|s l IH]; [reflexivity|]. cbn [map]. rewrite !sumZ_cons, IH. reflexivity. }
  rewrite !Z. reflexivity.
Qed.
(** Documents without statistics are refused, empty ones ignored. *)
Theorem C83_corpus files : (exists t, corpustotal (corpus files) = Ok t) <->
  (forall f, In f files -> ~ In (Some None) f).
Proof.
  assert (A : (exists t, corpustotal (corpus files) = Ok t) <-> ~ In None (corpus files)).
  { unfold corpustotal. generalize (corpus files) as l. intros l.
    assert (M : forall g : Z * Z -> Z, (exists y, mapM (fun d => do x <- of_opt KeyError d; Ok (g x)) l = Ok y) <-> ~ In None l).
    { intros g. rewrite mapM_exists. split.
      - intros H I. destruct (H _ I) as [y Y]. discriminate Y.
      - intros H [x|] I; [eexists; reflexivity|contradiction]. }
    split.
    - intros [t E]. apply (M snd). destruct (mapM _ l) as [y|]; [eauto|discriminate E].
    - intros H. destruct (proj2 (M snd) H) as [a ->]. destruct (proj2 (M fst) H) as [b ->]. eexists. reflexivity. }
  rewrite A. unfold corpus. split.
  - intros H f If I. apply H. apply in_flat_map. exists f. split; [exact If|]. apply in_flat_map. exists (Some None). split; [exact I|left; reflexivity].
  - intros H I. apply in_flat_map in I as (f & If & I). apply in_flat_map in I as ([x|] & Ix & E); [|destruct E].
    destruct E as [E|[]]. subst x. exact (H f If Ix).
Qed.
Lemma to_frac_coprime q : Z.gcd (fst (to_frac q)) (snd (to_frac q)) = 1%Z /\ (0 < snd (to_frac q))%Z /\ (ratio (fst (to_frac q)) (snd (to_frac q)) == q)%Q.
Proof.
  unfold to_frac. cbn [fst snd]. split; [|split; [lia|]].
  - destruct q as [n d]. unfold Qred. pose proof (Z.ggcd_gcd n (Zpos d)) as G. pose proof (Z.ggcd_correct_divisors n (Zpos d)) as D.
    destruct (Z.ggcd n (Zpos d)) as [g [a b]]. cbn [fst snd] in *. destruct D as [D1 D2]. subst g.
    assert (P : (0 < Z.gcd n (Zpos d))%Z). { pose proof (Z.gcd_nonneg n (Zpos d)). destruct (Z.eq_dec (Z.gcd n (Zpos d)) 0) as [X|]; [|lia]. apply Z.gcd_eq_0_r in X. discriminate X. }
    cbn [Qnum Qden]. assert (B : (0 < b)%Z) by nia. rewrite Z2Pos.id by exact B.
    set (g := Z.gcd n (Zpos d)) in *. pose proof (Z.gcd_mul_mono_l_nonneg a b g ltac:(lia)) as E.
    rewrite <- D1, <- D2 in E. fold g in E. pose proof (Z.gcd_nonneg a b). nia.
  - unfold ratio. rewrite Pos2Z.id. destruct (Qred q) as [n d] eqn:E. cbn [Qnum Qden]. rewrite <- E. apply Qred_correct.
Qed.
(** The page can be made iff no document lacks statistics and all tables can be
    made; of several statistics for a layout the last one counts. *)
Theorem C83_page files stats : (exists p, report files stats = Ok p) <->
  (forall f, In f files -> ~ In (Some None) f) /\
  forall name, In name tables -> exists before r after tab, stats = before ++ (name, r) :: after /\ ~ In name (map fst after) /\ fingerhandstats r = Ok tab.
Proof.
  assert (T : forall name, (exists tab, table (layout_dict stats) name = Ok tab) <->
    exists before r after tab, stats = before ++ (name, r) :: after /\ ~ In name (map fst after) /\ fingerhandstats r = Ok tab).
  { intros name. unfold table, layout_dict. rewrite dget_dict_of.
    assert (G : forall r, dget (rev stats) name = Some r <-> exists before after, stats = before ++ (name, r) :: after /\ ~ In name (map fst after)).
    { intros r. split.
      - intros E. assert (S : forall l : list (string * lstats), dget l name = Some r -> exists a b, l = a ++ (name, r) :: b /\ ~ In name (map fst a)).
        { clear. induction l as [|[k v] l IH]; cbn [dget]; [intros X; discriminate X|]. destruct (eqb_spec name k) as [->|N].
          - intros X. injection X as ->. exists [], l. split; [reflexivity|intros []].
          - intros X. destruct (IH X) as (a & b & -> & Na). exists ((k, v) :: a), b. split; [reflexivity|]. intros [Y|Y]; [apply N; symmetry; exact Y|contradiction]. }
        destruct (S _ E) as (a & b & Er & Na). exists (rev b), (rev a). split.
        + rewrite <- (rev_involutive stats), Er, rev_app_distr. cbn [rev]. rewrite <- app_assoc. reflexivity.
        + rewrite map_rev, <- in_rev. exact Na.
      - intros (b & a & -> & Na). rewrite rev_app_distr. cbn [rev]. rewrite <- app_assoc. rewrite dget_app.
        assert (N : dget (rev a) name = None). { apply dget_None. unfold dkeys. rewrite map_rev, <- in_rev. exact Na. }
        rewrite N. cbn [app dget]. rewrite eqb_refl. reflexivity. }
    split.
    - intros [tab E]. destruct (dget (rev stats) name) as [r|]; [|discriminate E]. cbn [of_opt bind] in E.
      destruct (proj1 (G r) eq_refl) as (b & a & Es & Na). exists b, r, a, tab. auto.
    - intros (b & r & a & tab & Es & Na & E). rewrite (proj2 (G r)) by eauto. cbn [of_opt bind]. eauto. }
  rewrite <- C83_corpus. unfold report. split.
  - intros [p E]. apply bind_inv in E as (t & Et & E). split; [eauto|].
    apply bind_inv in E as (osx & _ & E). apply bind_inv in E as (f & _ & E). apply bind_inv in E as (ts & Ets & _).
    intros name I. apply T. revert I. apply mapM_exists. eauto.
  - intros [[t ->] H]. cbn [bind].
    assert (Ets : exists ts, mapM (table (layout_dict stats)) tables = Ok ts) by (apply mapM_exists; intros n I; apply T, H, I).
    assert (Eo : exists osx, dget (layout_dict stats) "ar-osx" = Some osx).
    { destruct (proj2 (T "ar-osx") (H "ar-osx" ltac:(cbn; auto 20))) as [tab E]. unfold table in E. destruct (dget _ _) as [o|]; [eauto|discriminate E]. }
    destruct Eo as [osx ->]. cbn [of_opt bind].
    destruct (to_frac_coprime (ls_hamzaOnAlef osx)) as (Gc & Gp & _).
    destruct (@C82_fraction _ _ 10 Gp Gc ltac:(lia)) as (a & b & Ef & _). rewrite <- surjective_pairing in Ef. rewrite Ef. cbn [bind].
    destruct Ets as [ts ->]. eexists. reflexivity.
Qed.
(** What it shows *)
Theorem C83_shown files stats p : report files stats = Ok p ->
  corpustotal (corpus files) = Ok (pg_words p, pg_characters p) /\
  Forall2 (fun name tab => exists r, dget (dict_of stats) name = Some r /\ fingerhandstats r = Ok tab) tables (pg_tables p) /\
  exists r a b, dget (dict_of stats) "ar-osx" = Some r /\ (pg_impact p == 100 * ls_hamzaImpact r)%Q /\
    pg_alef p = str_int a ++ [0x2044%N] ++ str_int b /\ (1 <= b <= 10)%Z /\
    forall a' b', (1 <= b' <= 10)%Z -> (error (ls_hamzaOnAlef r) a b <= error (ls_hamzaOnAlef r) a' b')%Q.
Proof.
  intros E. unfold report in E. apply bind_inv in E as ([w c] & Et & E). apply bind_inv in E as (osx & Eo & E). apply bind_inv in E as (f & Ef & E).
  apply bind_inv in E as (ts & Ets & E). injection E as <-. cbn [pg_words pg_characters pg_tables pg_impact pg_alef fst snd].
  split; [exact Et|]. split.
  - apply mapM_Ok_inv in Ets. induction Ets as [|name tab l l' H _ IH]; constructor; [|exact IH]. unfold table in H.
    apply bind_inv in H as (r & Er & H). exists r. split; [|exact H]. unfold layout_dict in Er. revert Er.
    destruct (dget (dict_of stats) name); intros X; [injection X as ->; reflexivity|discriminate X].
  - unfold layout_dict in Eo. destruct (dget (dict_of stats) "ar-osx") as [o|]; [|discriminate Eo]. injection Eo as ->.
    destruct (to_frac_coprime (ls_hamzaOnAlef osx)) as (Gc & Gp & Gq).
    destruct (@C82_fraction _ _ 10 Gp Gc ltac:(lia)) as (a & b & Ef' & Hb & _ & Hn). rewrite <- surjective_pairing in Ef'. rewrite Ef' in Ef. injection Ef as <-.
    exists osx, a, b. split; [reflexivity|]. split; [ring|]. split; [reflexivity|]. split; [exact Hb|].
    intros a' b' Hb'. destruct (Hn a' b' Hb') as [H _]. unfold error in *. rewrite Gq in H. exact H.
Qed.
Example C83_page_example : (exists p, report [[Some (Some (7, 2)%Z); None]] (map (fun n => (n, mkLstats [(LEFT, 5%Z); (RIGHT, 5%Z)]
  (map (fun f => ((LEFT, f), 1%Z)) FingerType ++ map (fun f => ((RIGHT, f), 1%Z)) FingerType) 10 0%Q 0%Q (1 # 3)%Q)) tables) = Ok p /\
  pg_words p = 2%Z /\ pg_alef p = map N.of_nat [49; 8260; 51] /\ List.length (pg_tables p) = 12).
Proof. eexists. split; [vm_compute; reflexivity|]. repeat split. Qed.

Print Assumptions C83_succeeds.
Print Assumptions C83_fingers.
Print Assumptions C83_table.
Print Assumptions C83_layouts.
Print Assumptions C83_possible.
Print Assumptions C83_typed.
Print Assumptions C83_phonetic.
Print Assumptions C83_totals.
Print Assumptions C83_corpus.
Print Assumptions C83_page.
Print Assumptions C83_shown.
