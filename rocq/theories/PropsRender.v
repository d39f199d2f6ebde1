(** C51-C54: drawing of keyboards. *)
From Coq Require Import QArith Qabs Lqa.
From Verif Require Import Base LayoutModel WriterModel RenderModel RenderProofs DataKeyboard DataFingermap DataLayouts ShippedProofs.
Close Scope Q_scope.
Open Scope string_scope.
Open Scope list_scope.

Lemma bind_inv {A B} (m : res A) (f : A -> res B) b : bind m f = Ok b -> exists a, m = Ok a /\ f a = Ok b.
Proof. destruct m as [a|e]; [exists a; auto|discriminate]. Qed.
(** * C51 *)
Definition sane (s : settings) (width : string -> Q) : Prop :=
  (0 <= buttonMargin s)%Q /\ (0 <= middleGap s)%Q /\ (0 <= sWidth s)%Q /\ forall b, (0 <= width b)%Q.
(** Refused exactly if a key appears twice *)
Theorem C51_total s width rows :
  (NoDup (keys rows) -> exists m wh, calcDimensions s width rows = Ok (m, wh)) /\
  (~ NoDup (keys rows) -> calcDimensions s width rows = Raise AssertionError).
Proof.
  unfold calcDimensions. split; intros N.
  - rewrite calc_ok by exact N. eauto.
  - apply calc_dup; [constructor|exact N].
Qed.
(** Where the keys are *)
Theorem C51_positions s width rows m w h : calcDimensions s width rows = Ok (m, (w, h)) ->
  dkeys m = keys rows /\
  (forall i j b, key_at rows i j b -> exists lr x y, nth_error rows i = Some lr /\ dget m b = Some (x, y) /\
     (x == x_of s width lr j)%Q /\ (y == y_of s i)%Q) /\
  (h == y_of s (List.length rows))%Q /\
  (forall lr, In lr rows -> (row_width s width lr <= w)%Q) /\ ((w == 0)%Q \/ exists lr, In lr rows /\ (w == row_width s width lr)%Q).
Proof.
  intros E. assert (N : NoDup (keys rows)).
  { destruct (nodupb (keys rows)) eqn:D; [apply nodupb_NoDup; exact D|]. exfalso.
    assert (D' : ~ NoDup (keys rows)) by (intros K; apply nodupb_NoDup in K; congruence).
    rewrite (proj2 (C51_total s width rows) D') in E. discriminate. }
  unfold calcDimensions in E. rewrite calc_ok in E by exact N. cbn [app] in E. injection E as <- <- <-.
  split; [apply rowsl_keys|]. split; [|split; [|split]].
  - intros i j b K. destruct (@rowsl_In s width rows 0%Q i j b K) as (x & y & lr & I & Nl & Ex & Ey). exists lr, x, y.
    split; [exact Nl|]. split; [|split; [exact Ex|rewrite Ey; lra]]. apply dget_In_iff; [|exact I]. unfold dict_wf. rewrite rowsl_keys. exact N.
  - rewrite yend_sum. lra.
  - apply maxw_ge.
  - destruct (maxw_attained s width rows 0%Q) as [->|H]; [left; lra|right; exact H].
Qed.
(** No two keys overlap; there is at least the margin between them. *)
Theorem C51_apart s width rows m w h i j b i' j' b' x y x' y' : sane s width ->
  calcDimensions s width rows = Ok (m, (w, h)) -> key_at rows i j b -> key_at rows i' j' b' -> (i, j) <> (i', j') ->
  dget m b = Some (x, y) -> dget m b' = Some (x', y') ->
  (x + buttonWidth s width b + buttonMargin s <= x' \/ x' + buttonWidth s width b' + buttonMargin s <= x \/
   y + sWidth s + buttonMargin s <= y' \/ y' + sWidth s + buttonMargin s <= y)%Q.
Proof.
  intros (Hm & Hg & Hs & Hw) E K K' Ne D D'. destruct (C51_positions _ _ _ _ _ _ E) as (_ & P & _).
  destruct (P _ _ _ K) as (lr & x0 & y0 & N & G & Ex & Ey). destruct (P _ _ _ K') as (lr' & x1 & y1 & N' & G' & Ex' & Ey').
  assert (Epos : (x0, y0) = (x, y)) by (rewrite G in D; congruence). assert (Epos' : (x1, y1) = (x', y')) by (rewrite G' in D'; congruence).
  injection Epos as -> ->. injection Epos' as -> ->. clear G G' D D'.
  destruct (Nat.lt_trichotomy i i') as [L|[L|L]].
  - right. right. left. pose proof (y_of_lt s Hm Hs i i' L). rewrite Ey, Ey'. lra.
  - subst i'. assert (lr' = lr) by congruence. subst lr'.
    destruct K as (l & r & Er & Kj). destruct K' as (l' & r' & Er' & Kj').
    assert (Elr : (l, r) = lr) by congruence. assert (Elr' : (l', r') = lr) by congruence. subst lr. injection Elr' as -> ->.
    destruct (Nat.lt_trichotomy j j') as [L|[L|L]]; [|congruence|].
    + left. pose proof (x_of_lt s width Hm Hg Hs Hw (l, r) j j' b Kj L). rewrite Ex, Ex'. lra.
    + right. left. pose proof (x_of_lt s width Hm Hg Hs Hw (l, r) j' j b' Kj' L). rewrite Ex, Ex'. lra.
  - right. right. right. pose proof (y_of_lt s Hm Hs i' i L). rewrite Ey, Ey'. lra.
Qed.
(** All keys lie within the drawing. *)
Theorem C51_within s width rows m w h i j b x y : sane s width ->
  calcDimensions s width rows = Ok (m, (w, h)) -> key_at rows i j b -> dget m b = Some (x, y) ->
  (0 <= x /\ x + buttonWidth s width b + buttonMargin s <= w /\ 0 <= y /\ y + sWidth s + buttonMargin s <= h)%Q.
Proof.
  intros (Hm & Hg & Hs & Hw) E K D. destruct (C51_positions _ _ _ _ _ _ E) as (_ & P & Eh & Wr & _).
  destruct (P _ _ _ K) as (lr & x0 & y0 & N & G & Ex & Ey).
  assert (Epos : (x0, y0) = (x, y)) by (rewrite G in D; congruence). injection Epos as -> ->.
  destruct K as (l & r & Er & Kj). assert (Elr : (l, r) = lr) by congruence. subst lr.
  pose proof (x_of_pos s width Hm Hg Hs Hw (l, r) j). pose proof (y_of_pos s Hm Hs i).
  pose proof (x_of_row s width Hm Hg Hs Hw (l, r) j b Kj). pose proof (Wr _ (nth_error_In _ _ Er)).
  assert (Li : i < List.length rows) by (apply nth_error_Some; congruence). pose proof (y_of_lt s Hm Hs _ _ Li).
  rewrite Ex, Ey, Eh. repeat split; lra.
Qed.
(** Neighbours in a row are separated by the margin, halves by the additional gap. *)
Theorem C51_neighbours s width rows m w h i j b b' x y x' y' lr :
  calcDimensions s width rows = Ok (m, (w, h)) -> nth_error rows i = Some lr ->
  nth_error (fst lr ++ snd lr) j = Some b -> nth_error (fst lr ++ snd lr) (S j) = Some b' ->
  dget m b = Some (x, y) -> dget m b' = Some (x', y') ->
  (y' == y)%Q /\
  (x' == x + buttonWidth s width b + buttonMargin s + (if Nat.eqb (S j) (List.length (fst lr)) then middleGap s else 0))%Q.
Proof.
  intros E Nr Nj Nj' D D'. destruct lr as [l r]. destruct (C51_positions _ _ _ _ _ _ E) as (_ & P & _).
  destruct (P i j b) as (lr & x0 & y0 & N & G & Ex & Ey); [exists l, r; auto|].
  destruct (P i (S j) b') as (lr' & x1 & y1 & N' & G' & Ex' & Ey'); [exists l, r; auto|].
  assert (Epos : (x0, y0) = (x, y)) by (rewrite G in D; congruence). assert (Epos' : (x1, y1) = (x', y')) by (rewrite G' in D'; congruence).
  injection Epos as -> ->. injection Epos' as -> ->. rewrite Nr in N, N'. injection N as <-. injection N' as <-. clear G G' D D'.
  split; [rewrite Ey, Ey'; lra|]. rewrite Ex, Ex'. unfold x_of. cbn [fst snd] in *.
  assert (F : firstn (S j) (l ++ r) = firstn j (l ++ r) ++ [b]).
  { clear -Nj. revert j Nj. induction (l ++ r) as [|c q IH]; intros [|j] H; try discriminate; [injection H as ->; reflexivity|].
    cbn [firstn app]. f_equal. apply IH, H. }
  rewrite F, map_app, qsum_app. cbn [map qsum fold_right]. unfold cellw at 2.
  destruct (Nat.ltb_spec j (List.length l)), (Nat.ltb_spec (S j) (List.length l)), (Nat.eqb_spec (S j) (List.length l)); try lia; lra.
Qed.
Definition kb_rows : list (list string * list string) := map (fun r => (map kb_name (fst r), map kb_name (snd r))) ibmpc105.
Definition kb_widthof (b : string) : Q :=
  match find (fun k => eqb (kb_name k) b) (flat_map (fun r => fst r ++ snd r) ibmpc105) with Some k => kb_width k | None => 1%Q end.
Definition kb_markedof (b : string) : bool :=
  match find (fun k => eqb (kb_name k) b) (flat_map (fun r => fst r ++ snd r) ibmpc105) with Some k => kb_marked k | None => false end.
Lemma kb_sane : sane defaultSettings kb_widthof.
Proof.
  repeat split; try (vm_compute; discriminate). intros b. unfold kb_widthof. destruct (find _ _) as [k|] eqn:E; [|vm_compute; discriminate].
  apply find_some in E as [I _]. assert (B : forallb (fun k => Qle_bool 0 (kb_width k)) (flat_map (fun r => fst r ++ snd r) ibmpc105) = true) by (vm_compute; reflexivity).
  rewrite forallb_forall in B. apply Qle_bool_iff, B, I.
Qed.
Example C51_example : sane defaultSettings kb_widthof /\ NoDup (keys kb_rows) /\ List.length kb_rows = 5.
Proof. split; [exact kb_sane|]. split; [apply nodupb_NoDup; vm_compute; reflexivity|reflexivity]. Qed.

(** * C52 *)
Lemma dset_keys_new {K V} `{EqDec K} (d : list (K * V)) k v : dkeys (dset d k v) = if dhas d k then dkeys d else dkeys d ++ [k].
Proof.
  unfold dkeys, dhas. induction d as [|[a b] d IH]; [reflexivity|]. cbn [dset dget]. destruct (eqb k a); [reflexivity|].
  cbn [map fst]. rewrite IH. destruct (dget d k); reflexivity.
Qed.
(** First occurrences *)
Fixpoint firsts {K} `{EqDec K} (seen : list K) (l : list K) : list K :=
  match l with [] => [] | k :: l' => if mem k seen then firsts seen l' else k :: firsts (seen ++ [k]) l' end.
Lemma dict_fold_keys {K V} `{EqDec K} (l : list (K * V)) : forall d,
  dkeys (fold_left (fun d kv => dset d (fst kv) (snd kv)) l d) = dkeys d ++ firsts (dkeys d) (map fst l).
Proof.
  induction l as [|[k v] l IH]; intros d; cbn [fold_left map fst snd firsts]; [rewrite app_nil_r; reflexivity|].
  rewrite IH, dset_keys_new. unfold dhas. destruct (dget d k) eqn:E.
  - assert (M : mem k (dkeys d) = true) by (apply mem_In, dget_key; eauto). rewrite M. reflexivity.
  - assert (M : mem k (dkeys d) = false). { destruct (mem k (dkeys d)) eqn:M; [|reflexivity]. apply mem_In in M. apply dget_None in E. contradiction. }
    rewrite M, <- app_assoc. reflexivity.
Qed.
Lemma dict_values {K V} `{EqDec K} (d : list (K * V)) : dict_wf d -> forall v, In v (dvals d) <-> exists k, dget d k = Some v.
Proof.
  intros W v. unfold dvals. rewrite in_map_iff. split.
  - intros ([k w] & <- & I). exists k. apply dget_In_iff; assumption.
  - intros (k & E). exists (k, v). split; [reflexivity|]. apply dget_In, E.
Qed.
(** Each key value once, in the order of first occurrence, ... *)
Theorem C52_keys {A K} `{EqDec K} (l : list A) (key : A -> K) : map key (unique l key) = firsts [] (map key l).
Proof.
  unfold unique. set (d := dict_of (map (fun v => (key v, v)) l)).
  assert (W : dict_wf d) by apply dict_of_wf.
  assert (G : forall k v, In (k, v) d -> key v = k).
  { intros k v I. apply dget_In_iff in I; [|exact W]. unfold d in I. rewrite dget_dict_of in I. apply dget_In in I. apply in_rev in I.
    apply in_map_iff in I as (a & E & _). congruence. }
  transitivity (dkeys d).
  - unfold dvals, dkeys. rewrite map_map. apply map_ext_in. intros [k v] I. exact (G k v I).
  - unfold d, dict_of. rewrite dict_fold_keys. rewrite map_map. reflexivity.
Qed.
(** ... represented by its last element. *)
Theorem C52_last {A K} `{EqDec K} (l : list A) (key : A -> K) v :
  In v (unique l key) <-> exists l1 l2, l = l1 ++ v :: l2 /\ forall u, In u l2 -> key u <> key v.
Proof.
  unfold unique. rewrite dict_values by apply dict_of_wf. split.
  - intros (k & E). rewrite dget_dict_of in E.
    assert (G : forall q, dget (rev (map (fun u => (key u, u)) q)) k = Some v -> exists l1 l2, q = l1 ++ v :: l2 /\ key v = k /\ forall u, In u l2 -> key u <> k).
    { intros q. induction q as [|u q IH] using rev_ind; [discriminate|]. rewrite map_app, rev_app_distr. cbn [map rev app dget].
      destruct (eqb_spec k (key u)) as [Ek|Nk].
      - intros [= ->]. exists q, []. split; [reflexivity|]. split; [congruence|]. intros ? [].
      - intros E'. destruct (IH E') as (l1 & l2 & -> & Ek & Hl). exists l1, (l2 ++ [u]). split; [rewrite <- app_assoc; reflexivity|].
        split; [exact Ek|]. intros u' I. apply in_app_iff in I as [I|[<-|[]]]; [exact (Hl _ I)|congruence]. }
    destruct (G l E) as (l1 & l2 & El & <- & Hl). eauto.
  - intros (l1 & l2 & -> & Hl). exists (key v). rewrite dget_dict_of, map_app, rev_app_distr. cbn [map rev]. rewrite <- app_assoc, dget_app.
    assert (Ne : dget (rev (map (fun u => (key u, u)) l2)) (key v) = None).
    { apply dget_None. intros I. unfold dkeys in I. apply in_map_iff in I as ([k u] & Ek & I). apply in_rev in I. apply in_map_iff in I as (u' & E & I).
      cbn in Ek. assert (key u' = key v) by congruence. exact (Hl _ I H0). }
    rewrite Ne. cbn [app dget]. rewrite eqb_refl. reflexivity.
Qed.
(** What first occurrences are *)
Theorem C52_firsts {K} `{EqDec K} (l : list K) : NoDup (firsts [] l) /\ (forall k, In k (firsts [] l) <-> In k l) /\
  forall l1 k l2, l = l1 ++ k :: l2 -> ~ In k l1 -> exists q, firsts [] l = firsts [] l1 ++ k :: q.
Proof.
  assert (G : forall l seen k, In k (firsts seen l) <-> In k l /\ ~ In k seen).
  { intros q. induction q as [|a q IH]; intros seen k; cbn [firsts]; [cbn; tauto|]. destruct (mem a seen) eqn:M.
    - apply mem_In in M. rewrite IH. cbn [In]. split; [tauto|]. intros [[<-|I] N]; [contradiction|auto].
    - assert (N : ~ In a seen) by (intros N; apply mem_In in N; congruence). cbn [In]. rewrite IH, in_app_iff. cbn [In]. split.
      + intros [<-|[I N']]; [auto|]. split; [auto|]. intros K'. apply N'. auto.
      + intros [[<-|I] N']; [auto|]. destruct (eqb_spec a k) as [->|Na]; [auto|]. right. split; [exact I|]. intros [K'|[K'|[]]]; [exact (N' K')|exact (Na K')]. }
  assert (ND : forall q seen, NoDup (firsts seen q)).
  { intros q. induction q as [|a q IH]; intros seen; cbn [firsts]; [constructor|]. destruct (mem a seen); [apply IH|].
    constructor; [|apply IH]. rewrite G, in_app_iff. cbn. tauto. }
  split; [apply ND|]. split; [intros k; rewrite G; cbn; tauto|].
  assert (SP : forall l1 seen k l2, ~ In k l1 -> ~ In k seen -> exists q, firsts seen (l1 ++ k :: l2) = firsts seen l1 ++ k :: q).
  { intros l1. induction l1 as [|a l1 IH]; intros seen k l2 N1 N2; cbn [app firsts].
    - assert (M : mem k seen = false) by (destruct (mem k seen) eqn:M; [apply mem_In in M; contradiction|reflexivity]). rewrite M. eauto.
    - destruct (mem a seen).
      + apply IH; [intros I; apply N1; right; exact I|exact N2].
      + destruct (IH (seen ++ [a]) k l2) as [q Eq]; [intros I; apply N1; right; exact I| |exists q; rewrite Eq; reflexivity].
        rewrite in_app_iff. intros [I|[I|[]]]; [exact (N2 I)|]. apply N1. left. exact I. }
  intros l1 k l2 -> N. apply SP; [exact N|intros []].
Qed.
Example C52_example : unique [(1, "a"); (2, "b"); (1, "c"); (3, "d"); (2, "e")] fst = [(1, "c"); (2, "e"); (3, "d")].
Proof. reflexivity. Qed.

(** * C53 *)
Lemma mapM_all {A B} (f : A -> res B) l : (forall x, In x l -> exists y, f x = Ok y) -> exists ys, mapM f l = Ok ys.
Proof.
  induction l as [|x l IH]; intros H; [eexists; reflexivity|]. destruct (H x (or_introl eq_refl)) as [y E]. destruct IH as [ys E']; [intros; apply H; right; assumption|].
  cbn. rewrite E, E'. eexists; reflexivity.
Qed.
Lemma Forall2_In_l {A B} (R : A -> B -> Prop) l l' x : Forall2 R l l' -> In x l -> exists y, In y l' /\ R x y.
Proof. induction 1 as [|a b l l' Hr F IH]; intros []; [subst; exists b; split; [left; reflexivity|exact Hr]|]. destruct IH as (y & I & K); [assumption|]. exists y. split; [right; exact I|exact K]. Qed.
Lemma Forall2_In_r {A B} (R : A -> B -> Prop) l l' y : Forall2 R l l' -> In y l' -> exists x, In x l /\ R x y.
Proof. induction 1 as [|a b l l' Hr F IH]; intros []; [subst; exists a; split; [left; reflexivity|exact Hr]|]. destruct IH as (x & I & K); [assumption|]. exists x. split; [right; exact I|exact K]. Qed.
Definition inside_rect (r : rect) (x y : Q) : Prop := (r_x r <= x <= r_x r + r_w r /\ r_y r <= y <= r_y r + r_h r)%Q.
Section C53.
  Variables (s : settings) (width : string -> Q) (L : layout) (fm : list (string * (direction * finger))).
  Variables (marked : string -> bool) (heat : string -> Q) (display : text -> res text).
  (** One cap for each key, in order, at its place with its width *)
  Theorem C53_caps rows ds w h : render s width L fm marked heat display rows = Ok (ds, (w, h)) ->
    exists m, calcDimensions s width rows = Ok (m, (w, h)) /\ map d_button ds = keys rows /\
      forall d, In d ds -> exists x y, dget m (d_button d) = Some (x, y) /\ d_cap d = mkRect x y (buttonWidth s width (d_button d)) (sWidth s).
  Proof.
    unfold render. intros E. apply bind_inv in E as ([m wh] & E1 & E). apply bind_inv in E as (ds' & E2 & E). injection E as <- E. cbn [fst snd] in *. subst wh.
    exists m. split; [exact E1|]. fold (keys rows) in E2. clear E1. revert ds' E2. induction (keys rows) as [|b l IH]; intros ds' E2.
    - injection E2 as <-. split; [reflexivity|]. intros d [].
    - cbn [mapM] in E2. apply bind_inv in E2 as (d & Ed & E2). apply bind_inv in E2 as (ds & El & E2). injection E2 as <-.
      destruct (IH _ El) as [H1 H2]. unfold draw_key in Ed. apply bind_inv in Ed as ([isMod ts] & _ & Ed). apply bind_inv in Ed as ([x y] & Ep & Ed).
      apply bind_inv in Ed as (sh & _ & Ed). injection Ed as <-. cbn [map d_button]. split; [f_equal; exact H1|].
      intros d' [<-|I]; [|exact (H2 _ I)]. exists x, y. cbn. split; [|reflexivity]. unfold dgetM in Ep. destruct (dget m b); [injection Ep as ->; reflexivity|discriminate].
  Qed.
  Hypothesis Hs : (0 <= sWidth s)%Q.
  Hypothesis Hw : forall b, (0 <= width b)%Q.
  Lemma draw_key_inv pos b d : draw_key s width L fm marked heat display pos b = Ok d ->
    exists isMod ts x y sh, button_texts L display b = Ok (isMod, ts) /\ dget pos b = Some (x, y) /\
      (if any_text ts then exists hf, dget fm b = Some hf /\ sh = Some (drawCapShadow s (buttonWidth s width b) x y, hf) else sh = None) /\
      d = mkDrawn b (drawCap s (buttonWidth s width b) x y) (negb (any_text ts)) sh
          (if marked b then drawMarker s (buttonWidth s width b) x y else [])
          (if negb (Qle_bool (heat b) 0) then Some (drawHighlight s (heat b) (buttonWidth s width b) x y) else None)
          (drawLabel s ts (buttonWidth s width b) x y) isMod.
  Proof.
    unfold draw_key. intros Ed. apply bind_inv in Ed as ([isMod ts] & E1 & Ed). apply bind_inv in Ed as ([x y] & Ep & Ed). apply bind_inv in Ed as (sh & Esh & Ed).
    injection Ed as <-. exists isMod, ts, x, y, sh. split; [exact E1|]. split; [unfold dgetM in Ep; destruct (dget pos b); [injection Ep as ->; reflexivity|discriminate]|].
    split; [|reflexivity]. destruct (any_text ts); [|injection Esh as <-; reflexivity]. apply bind_inv in Esh as (hf & Eh & Esh). injection Esh as <-.
    exists hf. split; [|reflexivity]. unfold dgetM in Eh. destruct (dget fm b); [injection Eh as ->; reflexivity|discriminate].
  Qed.
  (** The marker and the highlight circle stay within the cap. *)
  Theorem C53_within pos b d : draw_key s width L fm marked heat display pos b = Ok d ->
    (forall p q, nth_error (d_marker d) 1 = Some (p, q) ->
       inside_rect (d_cap d) (fst p) (snd p) /\ inside_rect (d_cap d) (fst q) (snd q)) /\
    (forall o cx cy r, d_highlight d = Some (o, cx, cy, r) -> (0 < o)%Q /\
       inside_rect (d_cap d) (cx - r) (cy - r) /\ inside_rect (d_cap d) (cx + r) (cy + r)).
  Proof.
    intros Ed. destruct (draw_key_inv _ _ _ Ed) as (isMod & ts & x & y & sh & _ & _ & _ & ->). cbn [d_marker d_highlight d_cap].
    pose proof (buttonWidth_pos s width Hs Hw b) as Wb. set (w := buttonWidth s width b) in *. clearbody w. unfold inside_rect, drawCap. cbn [r_x r_y r_w r_h]. split.
    - intros p q E. destruct (marked b); [|destruct (nth_error [] 1) eqn:K; discriminate]. cbn [drawMarker nth_error] in E. injection E as <- <-. cbn [fst snd].
      repeat split; lra.
    - intros o cx cy r E. destruct (Qle_bool (heat b) 0) eqn:Eh; [discriminate|]. cbn [negb] in E. unfold drawHighlight in E. injection E as <- <- <- <-.
      assert (Hh : ~ (heat b <= 0)%Q) by (intros K; apply Qle_bool_iff in K; congruence). split; [lra|].
      assert (P : (0 <= pymin w (sWidth s) /\ pymin w (sWidth s) <= w /\ pymin w (sWidth s) <= sWidth s)%Q).
      { unfold pymin. destruct (Qle_bool w (sWidth s)) eqn:K; cbn [negb]; [apply Qle_bool_iff in K; repeat split; lra|].
        assert (~ (w <= sWidth s)%Q) by (intros K'; apply Qle_bool_iff in K'; congruence). repeat split; lra. }
      set (q := pymin w (sWidth s)) in *. clearbody q. destruct P as (P1 & P2 & P3).
      assert (E2 : (q / 2 == q * (1#2))%Q) by (unfold Qdiv; reflexivity). assert (E3 : (w / 2 == w * (1#2))%Q) by (unfold Qdiv; reflexivity).
      assert (E4 : (sWidth s / 2 == sWidth s * (1#2))%Q) by (unfold Qdiv; reflexivity). rewrite ?E2, ?E3, ?E4. repeat split; lra.
  Qed.
  (** Shadows of keys reach no other key if the offset does not exceed the margin. *)
  Theorem C53_shadow rows m w h i j b i' j' b' d d' r hf : sane s width -> (0 <= shadowOffset s <= buttonMargin s)%Q ->
    calcDimensions s width rows = Ok (m, (w, h)) -> key_at rows i j b -> key_at rows i' j' b' -> (i, j) <> (i', j') ->
    draw_key s width L fm marked heat display m b = Ok d -> draw_key s width L fm marked heat display m b' = Ok d' ->
    d_shadow d = Some (r, hf) -> let c := d_cap d' in
    (r_x r + r_w r <= r_x c \/ r_x c + r_w c <= r_x r \/ r_y r + r_h r <= r_y c \/ r_y c + r_h c <= r_y r)%Q.
  Proof.
    intros Sa Ho Ec K K' Ne Ed Ed' Esh c. destruct (draw_key_inv _ _ _ Ed) as (isMod & ts & x & y & sh & _ & Gp & Hsh & ->).
    destruct (draw_key_inv _ _ _ Ed') as (isMod' & ts' & x' & y' & sh' & _ & Gp' & _ & E'). unfold c. rewrite E'. cbn [d_cap d_shadow] in *.
    destruct (any_text ts); [|congruence]. destruct Hsh as (hf' & _ & ->). injection Esh as <- <-.
    pose proof (C51_apart _ _ _ _ _ _ _ _ _ _ _ _ _ _ _ _ Sa Ec K K' Ne Gp Gp') as A. unfold drawCap, drawCapShadow. cbn [r_x r_y r_w r_h].
    destruct Sa as (Hm & _). destruct A as [A|[A|[A|A]]]; [left|right; left|right; right; left|right; right; right]; lra.
  Qed.
  (** A key is marked as unused iff it has no text and is no modifier; otherwise its
      shadow carries hand and finger. *)
  Theorem C53_used pos b d : (forall t e, display t = Ok e -> e <> []) -> draw_key s width L fm marked heat display pos b = Ok d ->
    (d_unused d = true <-> isModifier L (frozenset [b]) = false /\ forall l, In l (layers L) -> dget (llayout l) b = None) /\
    (d_unused d = true <-> d_shadow d = None) /\
    (forall r hf, d_shadow d = Some (r, hf) -> dget fm b = Some hf) /\
    d_modifier d = isModifier L (frozenset [b]).
  Proof.
    intros Hd Ed. destruct (draw_key_inv _ _ _ Ed) as (isMod & ts & x & y & sh & Et & _ & Hsh & ->). cbn [d_unused d_shadow d_modifier].
    assert (A : any_text ts = false <-> isModifier L (frozenset [b]) = false /\ forall l, In l (layers L) -> dget (llayout l) b = None).
    { clear Ed Hsh. unfold button_texts in Et. destruct (isModifier L (frozenset [b])) eqn:Em.
      - apply bind_inv in Et as (il & _ & Et). apply bind_inv in Et as (a & Ea & Et). injection Et as <- <-. split; [|intros [? _]; discriminate].
        intros K. exfalso. unfold dgetM in Ea. destruct (dget layerToArrow (fst il)) as [a'|] eqn:Ea'; [|discriminate]. injection Ea as ->.
        apply dget_In in Ea'. cbn in Ea'. destruct Ea' as [E|[E|[E|[]]]]; apply (f_equal snd) in E; cbn in E; subst a; discriminate.
      - apply bind_inv in Et as (ts' & Et & E). injection E as <- <-. split; [intros K; split; [reflexivity|]|intros [_ K]].
        + unfold getButtonText in Et. revert ts' Et K. generalize (layers L). intros ls. induction ls as [|l ls IH]; intros ts' Et K l' I; [destruct I|].
          cbn [map mapM] in Et. apply bind_inv in Et as (t & E1 & Et). apply bind_inv in Et as (ts2 & E2 & Et). injection Et as <-.
          unfold any_text in K. cbn [existsb] in K. apply orb_false_iff in K as [K1 K2]. destruct I as [<-|I]; [|exact (IH _ E2 K2 _ I)].
          unfold display_cell in E1. destruct (dget (llayout l) b) as [[u|]|]; [|discriminate|reflexivity].
          apply bind_inv in E1 as (e & Ee & E1). injection E1 as <-. destruct e; [exfalso; exact (Hd _ _ Ee eq_refl)|discriminate].
        + unfold getButtonText in Et. revert ts' Et K. generalize (layers L). intros ls. induction ls as [|l ls IH]; intros ts' Et K.
          * injection Et as <-. reflexivity.
          * cbn [map mapM] in Et. apply bind_inv in Et as (t & E1 & Et). apply bind_inv in Et as (ts2 & E2 & Et). injection Et as <-.
            rewrite (K l (or_introl eq_refl)) in E1. injection E1 as <-. cbn. apply (IH _ E2). intros l' I. apply K. right. exact I. }
    split; [|split; [|split]].
    - rewrite negb_true_iff. exact A.
    - rewrite negb_true_iff. destruct (any_text ts); [destruct Hsh as (hf & _ & ->); split; discriminate|rewrite Hsh; split; reflexivity].
    - intros r hf E. destruct (any_text ts); [|congruence]. destruct Hsh as (hf' & Eh & ->). injection E as _ <-. exact Eh.
    - unfold button_texts in Et. destruct (isModifier L (frozenset [b])).
      + apply bind_inv in Et as (il & _ & Et). apply bind_inv in Et as (a & _ & Et). injection Et as <- _. reflexivity.
      + apply bind_inv in Et as (ts' & _ & Et). injection Et as <- _. reflexivity.
  Qed.
  (** The labels: twice, first as shadow, one per layer that has a text, up to the
      fourth layer *)
  Theorem C53_labels texts w x y : let ls := drawLabel s texts w x y in
    map l_layer (filter (fun l => negb (l_shadow l)) ls) = filter (fun i => match nth_error texts i with Some (Some _) => true | _ => false end) (seq 0 4) /\
    map l_layer (filter l_shadow ls) = map l_layer (filter (fun l => negb (l_shadow l)) ls).
  Proof.
    cbv zeta. unfold drawLabel. rewrite !filter_app.
    assert (S1 : forall l, filter l_shadow (flat_map (draw_text s x y w true) l) = flat_map (draw_text s x y w true) l /\
                filter (fun l => negb (l_shadow l)) (flat_map (draw_text s x y w true) l) = [] /\
                filter l_shadow (flat_map (draw_text s x y w false) l) = [] /\
                filter (fun l => negb (l_shadow l)) (flat_map (draw_text s x y w false) l) = flat_map (draw_text s x y w false) l /\
                map l_layer (flat_map (draw_text s x y w true) l) = map l_layer (flat_map (draw_text s x y w false) l)).
    { intros l. induction l as [|[i [[t|] [dx dy]]] l (I1 & I2 & I3 & I4 & I5)]; [auto| |exact (conj I1 (conj I2 (conj I3 (conj I4 I5))))].
      cbn [flat_map draw_text app filter l_shadow negb map l_layer]. rewrite I1, I2, I3, I4, I5. auto. }
    destruct (S1 (enumerate (combine texts textParam))) as (I1 & I2 & I3 & I4 & I5). rewrite I1, I2, I3, I4, app_nil_r. cbn [app]. split; [|exact I5].
    clear. destruct texts as [|[t0|] [|[t1|] [|[t2|] [|[t3|] texts]]]]; try reflexivity; destruct texts; reflexivity.
  Qed.
  (** Each label belongs to a text; brackets are shown as control character instead.
      Its anchor lies on the cap unless that is too narrow. *)
  Theorem C53_label texts w x y l : (sWidth s / 2 <= w)%Q -> (0 <= shadowOffset s)%Q -> (shadowOffset s <= sWidth s / 5)%Q ->
    In l (drawLabel s texts w x y) ->
    (exists t, nth_error texts (l_layer l) = Some (Some t) /\
       if l_control l then hd 0%N t = 91%N /\ last t 0%N = 93%N /\ l_text l = removelast (tl t)
       else (hd 0%N t <> 91%N \/ last t 0%N <> 93%N) /\ l_text l = t) /\
    (r_y (drawCap s w x y) <= l_y l <= r_y (drawCap s w x y) + r_h (drawCap s w x y))%Q /\
    (l_shadow l = false -> inside_rect (drawCap s w x y) (l_x l) (l_y l)).
  Proof.
    intros Hw' Ho1 Ho2. assert (E2 : forall q, (q / 2 == q * (1#2))%Q) by (unfold Qdiv; reflexivity). assert (E5 : (sWidth s / 5 == sWidth s * (1#5))%Q) by (unfold Qdiv; reflexivity).
    rewrite E2 in Hw'. rewrite E5 in Ho2.
    assert (G : forall sh, In l (flat_map (draw_text s x y w sh) (enumerate (combine texts textParam))) -> l_shadow l = sh /\
      exists i t dx dy, nth_error texts i = Some (Some t) /\ In (dx, dy) textParam /\
        l = mkLabel i (x + w / 2 + (dx * sWidth s + (if sh then shadowOffset s else 0)))%Q (y + sWidth s / 2 + (dy * sWidth s + (if sh then shadowOffset s else 0)))%Q
              (if brackets t then removelast (tl t) else t) (brackets t) sh).
    { intros sh I. apply in_flat_map in I as ([i [t [dx dy]]] & Ie & I). unfold draw_text in I. destruct t as [t|]; [|destruct I]. destruct I as [<-|[]].
      split; [reflexivity|]. exists i, t, dx, dy.
      unfold enumerate in Ie. apply In_nth_error in Ie as (k & Ek).
      assert (Ei : nth_error (combine texts textParam) i = Some (Some t, (dx, dy))).
      { clear -Ek. revert k i Ek. generalize (combine texts textParam). intros q k i. 
        assert (G : forall q n k, nth_error (combine (seq n (List.length q)) q) k = Some (i, (Some t, (dx, dy))) -> i = n + k /\ nth_error q k = Some (Some t, (dx, dy))).
        { clear. intros q. induction q as [|a q IH]; intros n k E; [destruct k; discriminate|]. cbn [List.length seq combine] in E. destruct k as [|k].
          - cbn in E. injection E as -> ->. split; [lia|reflexivity].
          - cbn [nth_error] in *. apply IH in E as [-> E]. split; [lia|exact E]. }
        intros E. apply G in E as [-> E]. exact E. }
      assert (C : nth_error texts i = Some (Some t) /\ nth_error textParam i = Some (dx, dy)).
      { clear -Ei. revert i Ei. generalize textParam. induction texts as [|a q IH]; intros tp i E; [destruct i; discriminate|]. destruct tp as [|b tp]; [destruct i; discriminate|].
        destruct i as [|i]; cbn in *; [injection E as -> ->; auto|exact (IH _ _ E)]. }
      split; [exact (proj1 C)|]. split; [exact (nth_error_In _ _ (proj2 C))|reflexivity]. }
    intros I. unfold drawLabel in I. apply in_app_iff in I.
    assert (I' : exists sh, In l (flat_map (draw_text s x y w sh) (enumerate (combine texts textParam)))) by (destruct I; eauto).
    destruct I' as [sh I']. destruct (G sh I') as (Esh & i & t & dx & dy & Et & Itp & ->). cbn [l_layer l_control l_text l_shadow l_x l_y] in *.
    split; [|split].
    - exists t. split; [exact Et|]. unfold brackets. destruct (N.eqb_spec (hd 0%N t) 91), (N.eqb_spec (last t 0%N) 93); cbn [andb]; auto.
    - unfold drawCap. cbn [r_y r_h]. rewrite !E2. cbn in Itp. decompose [or] Itp; try contradiction;
        match goal with H : (_, _) = (_, _) |- _ => injection H as <- <- end; destruct sh; lra.
    - intros ->. unfold inside_rect, drawCap. cbn [r_x r_w r_y r_h]. rewrite !E2. cbn in Itp. decompose [or] Itp; try contradiction;
        match goal with H : (_, _) = (_, _) |- _ => injection H as <- <- end; repeat split; lra.
  Qed.
  (** The shadow of a key has the size of the key and lies to the right of and below
      it by the same amount; so does the shadow of the marker. *)
  Theorem C53_offset pos b d r hf : draw_key s width L fm marked heat display pos b = Ok d -> d_shadow d = Some (r, hf) ->
    (r_w r == r_w (d_cap d) /\ r_h r == r_h (d_cap d) /\ r_x r - r_x (d_cap d) == shadowOffset s /\ r_y r - r_y (d_cap d) == shadowOffset s)%Q.
  Proof.
    intros Ed Esh. destruct (draw_key_inv _ _ _ Ed) as (isMod & ts & x & y & sh & _ & Gp & Hsh & ->). cbn [d_cap d_shadow] in *.
    destruct (any_text ts); [|congruence]. destruct Hsh as (hf' & _ & ->). injection Esh as <- <-. unfold drawCap, drawCapShadow. cbn [r_x r_y r_w r_h].
    split; [|split; [|split]]; ring.
  Qed.
  (** The four layers are written lower left, upper left, upper right and lower right,
      mirrored at the vertical axis of the key. *)
  Theorem C53_quadrants texts w x y l : (0 < sWidth s)%Q -> In l (drawLabel s texts w x y) -> l_shadow l = false ->
    let cx := (x + w / 2)%Q in let cy := (y + sWidth s / 2)%Q in
    (l_layer l < 4)%nat /\
    (if mem (l_layer l) [0; 1]%nat then l_x l < cx else cx < l_x l)%Q /\ (if mem (l_layer l) [1; 2]%nat then l_y l < cy else cy < l_y l)%Q /\
    (forall texts' l', In l' (drawLabel s texts' w x y) -> l_shadow l' = false ->
       (l_layer l = l_layer l' -> l_x l == l_x l' /\ l_y l == l_y l')%Q /\
       ((l_layer l + l_layer l' = 3)%nat -> l_x l + l_x l' == 2 * cx /\ l_y l == l_y l')%Q).
  Proof.
    intros Hs' I Sh cx cy.
    assert (G : forall texts l, In l (drawLabel s texts w x y) -> l_shadow l = false ->
      exists dx dy, In (l_layer l, (dx, dy)) [(0, (-(1#4), 3#10)); (1, (-(1#4), -(15#100))); (2, (1#4, -(15#100))); (3, (1#4, 3#10))]%nat%Q /\
        (l_x l == cx + dx * sWidth s /\ l_y l == cy + dy * sWidth s)%Q).
    { clear - s. intros texts l I Sh. unfold drawLabel in I. apply in_app_iff in I as [I|I]; apply in_flat_map in I as ([i [t [dx dy]]] & Ie & I);
        unfold draw_text in I; (destruct t as [t|]; [|destruct I]); destruct I as [<-|[]]; cbn [l_shadow l_layer l_x l_y] in *; [discriminate|].
      exists dx, dy. split; [|subst cx cy; split; ring].
      assert (J : forall ts, In (i, (Some t, (dx, dy))) (enumerate (combine ts textParam)) -> In (i, (dx, dy)) (enumerate textParam)).
      { intros [|t0 [|t1 [|t2 [|t3 [|t4 ts]]]]] J; cbn in J |- *; decompose [or] J; try contradiction;
          match goal with H : (_, (_, (_, _))) = _ |- _ => injection H as <- _ <- <- end; tauto. }
      apply J in Ie. exact Ie. }
    clearbody cx cy. destruct (G _ _ I Sh) as (dx & dy & Id & Ex & Ey). split; [|split; [|split]].
    - cbn in Id. decompose [or] Id; try contradiction; match goal with H : (_, (_, _)) = _ |- _ => apply (f_equal fst) in H; cbn in H; lia end.
    - cbn in Id. clear - Hs' Ex Id. decompose [or] Id; try contradiction; match goal with H : (_, (_, _)) = _ |- _ => injection H as E1 <- <- end; rewrite <- E1; cbn; lra.
    - cbn in Id. clear - Hs' Ey Id. decompose [or] Id; try contradiction; match goal with H : (_, (_, _)) = _ |- _ => injection H as E1 <- <- end; rewrite <- E1; cbn; lra.
    - intros texts' l' I' Sh'. destruct (G _ _ I' Sh') as (dx' & dy' & Id' & Ex' & Ey'). rewrite Ex, Ey, Ex', Ey'. cbn in Id, Id'.
      split; intros E; rewrite ?E in *; decompose [or] Id; try contradiction; decompose [or] Id'; try contradiction;
        repeat match goal with H : (_, (_, _)) = (_, (_, _)) |- _ => injection H; clear H; intros; subst dx dy || subst dx' dy' end;
        try (exfalso; lia); split; ring.
  Qed.
  (** A modifier is labelled, where the first layer of other keys is, with an arrow
      pointing to where its layer is written. *)
  Definition arrow_dir (c : N) : option (Q * Q) :=        (* x grows to the right, y downwards *)
    dget [(0x2B60%N, (-(1), 0)); (0x2B61%N, (0, -(1))); (0x2B62%N, (1, 0)); (0x2B63%N, (0, 1)); (0x2B66%N, (-(1), -(1))); (0x2B67%N, (1, -(1))); (0x2B68%N, (1, 1)); (0x2B69%N, (-(1), 1))]%Q c.
  Theorem C53_arrow pos b d i l : draw_key s width L fm marked heat display pos b = Ok d -> modifierToLayer L (frozenset [b]) = Ok (i, l) ->
    isModifier L (frozenset [b]) = true -> (0 < sWidth s)%Q ->
    exists la c ax ay, filter (fun x => negb (l_shadow x)) (d_labels d) = [la] /\ l_layer la = 0 /\ l_text la = [c] /\ arrow_dir c = Some (ax, ay) /\
      forall texts l', In l' (drawLabel s texts (r_w (d_cap d)) (r_x (d_cap d)) (r_y (d_cap d))) -> l_shadow l' = false -> l_layer l' = i ->
        (l_x l' - l_x la == Qabs ax * (l_x l' - l_x la) /\ 0 <= ax * (l_x l' - l_x la) /\ 0 < ax * (l_x l' - l_x la) + ay * (l_y l' - l_y la))%Q.
  Proof.
    intros Ed Em Hm Hs'. destruct (draw_key_inv _ _ _ Ed) as (isMod & ts & x & y & sh & Et & Gp & Hsh & ->). cbn [d_labels d_cap drawCap r_w r_x r_y].
    unfold button_texts in Et. rewrite Hm, Em in Et. cbn [bind fst] in Et. apply bind_inv in Et as (a & Ea & Et). injection Et as <- <-.
    unfold dgetM in Ea. destruct (dget layerToArrow i) as [a'|] eqn:Da; [|discriminate]. injection Ea as ->. apply dget_In in Da. set (w := buttonWidth s width b). clearbody w.
    assert (Q : forall texts l', In l' (drawLabel s texts w x y) -> l_shadow l' = false -> l_layer l' = i ->
      forall la, In la (drawLabel s [Some a] w x y) -> l_shadow la = false ->
        (l_x l' - l_x la == (if Nat.eqb i 1 then 0 else sWidth s * (1#2)) /\ l_y l' - l_y la == (if Nat.eqb i 3 then 0 else - sWidth s * (45#100)))%Q).
    { intros texts l' I' Sh' El la Ia Sha. unfold drawLabel in I', Ia. cbn in Ia. destruct Ia as [<-|[<-|[]]]; cbn in Sha; [discriminate|].
      apply in_app_iff in I' as [I'|I']; apply in_flat_map in I' as ([j [t [dx dy]]] & Ie & I');
        unfold draw_text in I'; (destruct t as [t|]; [|destruct I']); destruct I' as [<-|[]]; cbn [l_shadow l_layer l_x l_y] in *; [discriminate|]. subst j.
      assert (J : forall ts, In (i, (Some t, (dx, dy))) (enumerate (combine ts textParam)) -> In (i, (dx, dy)) (enumerate textParam)).
      { clear. intros [|t0 [|t1 [|t2 [|t3 [|t4 ts]]]]] J; cbn in J |- *; decompose [or] J; try contradiction;
          match goal with H : (_, (_, (_, _))) = _ |- _ => injection H as <- _ <- <- end; tauto. }
      apply J in Ie. cbn in Da. decompose [or] Da; try contradiction; match goal with H : (_, _) = (i, a) |- _ => injection H as <- <- end;
        cbn in Ie; decompose [or] Ie; try contradiction; match goal with H : (_, (_, _)) = _ |- _ => try discriminate H; injection H as <- <- end; cbn; split; ring. }
    cbn in Da. decompose [or] Da; try contradiction; match goal with H : (_, _) = (i, a) |- _ => injection H as <- <- end;
      (eexists _, _, _, _; split; [reflexivity|]; split; [reflexivity|]; split; [reflexivity|]; split; [reflexivity|];
       intros texts l' I' Sh' El; destruct (Q texts l' I' Sh' El _ (or_intror (or_introl eq_refl)) eq_refl) as [-> ->]; cbn [Nat.eqb];
       unfold Qabs; cbn; split; [ring|split; lra]).
  Qed.
  (** When a key cannot be drawn *)
  Theorem C53_total pos b : dhas pos b = true -> (forall t, exists e, display t = Ok e /\ e <> []) ->
    (exists d, draw_key s width L fm marked heat display pos b = Ok d) <->
    if isModifier L (frozenset [b]) then
      (exists i l, modifierToLayer L (frozenset [b]) = Ok (i, l) /\ 1 <= i <= 3) /\ dhas fm b = true
    else (forall l, In l (layers L) -> dget (llayout l) b <> Some COther) /\
         (dhas fm b = true \/ forall l, In l (layers L) -> dget (llayout l) b = None).
  Proof.
    intros Hp Hd. split.
    - intros [d Ed]. assert (Hd' : forall t e, display t = Ok e -> e <> []) by (intros t e E; destruct (Hd t) as (e' & E' & N); congruence).
      pose proof (C53_used _ _ _ Hd' Ed) as (U & _). destruct (draw_key_inv _ _ _ Ed) as (isMod & ts & x & y & sh & Et & _ & Hsh & ->). cbn [d_unused] in U. clear Ed.
      unfold button_texts in Et. destruct (isModifier L (frozenset [b])).
      + apply bind_inv in Et as ([i l] & E1 & Et). apply bind_inv in Et as (a & Ea & Et). injection Et as <- <-. split.
        * exists i, l. split; [exact E1|]. unfold dgetM in Ea. cbn [fst] in Ea. destruct (dget layerToArrow i) eqn:D; [|discriminate]. apply dget_In in D. cbn in D.
          decompose [or] D; try contradiction; match goal with H : (_, _) = (_, _) |- _ => apply (f_equal fst) in H; cbn in H; lia end.
        * destruct (any_text [Some a]) eqn:A; [destruct Hsh as (hf & D & _); unfold dhas; rewrite D; reflexivity|].
          destruct U as [U _]. destruct (U eq_refl). discriminate.
      + apply bind_inv in Et as (ts' & Et & E). injection E as <- <-. split.
        * intros l I D. unfold getButtonText in Et. apply mapM_Ok_inv in Et. apply in_map with (f := fun l => dget (llayout l) b) in I. rewrite D in I.
          apply Forall2_In_l with (x := Some COther) in Et; [|exact I]. destruct Et as (y' & _ & K). discriminate.
        * destruct (any_text ts'); [left; destruct Hsh as (hf & D & _); unfold dhas; rewrite D; reflexivity|]. right. destruct U as [U _]. apply U. reflexivity.
    - intros H. unfold draw_key, dgetM. unfold dhas in *. destruct (dget pos b) as [[x y]|]; [|discriminate]. unfold button_texts.
      destruct (isModifier L (frozenset [b])).
      + destruct H as ((i & l & E & Hi) & Hf). rewrite E. cbn [bind fst]. destruct (dget fm b) as [hf|]; [|discriminate].
        assert (D : exists a, dget layerToArrow i = Some a) by (destruct i as [|[|[|[|i]]]]; try lia; eexists; reflexivity). destruct D as [a D]. unfold dgetM. rewrite D. cbn [of_opt bind].
        destruct (any_text [Some a]); eexists; reflexivity.
      + destruct H as (H1 & H2). destruct (@mapM_all _ _ (display_cell display) (getButtonText L b)) as [ts Et].
        { intros c Ic. unfold getButtonText in Ic. apply in_map_iff in Ic as (l & <- & I). specialize (H1 l I). destruct (dget (llayout l) b) as [[t|]|]; [|congruence|eexists; reflexivity].
          destruct (Hd t) as (e & Ee & _). cbn. rewrite Ee. eexists; reflexivity. }
        rewrite Et. cbn [bind of_opt]. destruct (any_text ts) eqn:A; [|eexists; reflexivity]. destruct (dget fm b) as [hf|] eqn:D; [eexists; reflexivity|]. exfalso.
        destruct H2 as [H2|H2]; [discriminate|]. apply mapM_Ok_inv in Et. unfold any_text in A. apply existsb_exists in A as (t & It & At).
        apply Forall2_In_r with (y := t) in Et; [|exact It]. destruct Et as (c & Ic & Ec). unfold getButtonText in Ic. apply in_map_iff in Ic as (l & <- & I).
        rewrite (H2 l I) in Ec. injection Ec as <-. discriminate.
  Qed.
End C53.
(** Everything shipped can be drawn. *)
Definition drawable (L : layout) (b : string) : bool :=
  if isModifier L (frozenset [b]) then
    match modifierToLayer L (frozenset [b]) with Ok il => dhas layerToArrow (fst il) && dhas defaultFingermap b | Raise _ => false end
  else forallb (fun c => match c with Some COther => false | _ => true end) (getButtonText L b) &&
       (dhas defaultFingermap b || forallb (fun c => match c with None => true | _ => false end) (getButtonText L b)).
Lemma shipped_drawable : forallb (fun d => forallb (drawable (layout_new (shipped_layers d))) (keys kb_rows)) all_layouts = true.
Proof. vm_compute. reflexivity. Qed.
Theorem C53_shipped d heat display : In d all_layouts -> (forall t, exists e, display t = Ok e) ->
  exists ds wh, render defaultSettings kb_widthof (layout_new (shipped_layers d)) defaultFingermap kb_markedof heat display kb_rows = Ok (ds, wh) /\
    List.length ds = 63.
Proof.
  intros Id Hd. pose proof shipped_drawable as B. rewrite forallb_forall in B. specialize (B d Id). rewrite forallb_forall in B.
  set (L := layout_new (shipped_layers d)) in *. clearbody L.
  assert (N : NoDup (keys kb_rows)) by (apply nodupb_NoDup; vm_compute; reflexivity).
  unfold render. destruct (proj1 (C51_total defaultSettings kb_widthof kb_rows) N) as (m & wh & Ec). rewrite Ec. cbn [bind fst snd].
  destruct wh as [w h]. pose proof (C51_positions _ _ _ _ _ _ Ec) as (Km & _). clear Ec N.
  fold (keys kb_rows). destruct (@mapM_all _ _ (draw_key defaultSettings kb_widthof L defaultFingermap kb_markedof heat display m) (keys kb_rows)) as [ds E].
  - intros b I. specialize (B b I). assert (P : exists p, dget m b = Some p) by (apply dget_key; rewrite Km; exact I). destruct P as [[x y] Ep].
    unfold draw_key. assert (T : exists isMod ts, button_texts L display b = Ok (isMod, ts) /\ (any_text ts = true -> dhas defaultFingermap b = true)).
    { unfold drawable in B. unfold button_texts. destruct (isModifier L (frozenset [b])).
      - destruct (modifierToLayer L (frozenset [b])) as [il|]; [|discriminate]. apply andb_true_iff in B as [B1 B2]. cbn [bind].
        unfold dhas in B1. unfold dgetM. destruct (dget layerToArrow (fst il)); [|discriminate]. eexists _, _. split; [reflexivity|auto].
      - apply andb_true_iff in B as [B1 B2]. rewrite forallb_forall in B1.
        destruct (@mapM_all _ _ (display_cell display) (getButtonText L b)) as [ts Et].
        { intros c Ic. specialize (B1 c Ic). destruct c as [[t|]|]; [|discriminate|eexists; reflexivity]. destruct (Hd t) as [e Ee]. cbn. rewrite Ee. eexists; reflexivity. }
        rewrite Et. eexists _, _. split; [reflexivity|]. intros A. apply orb_true_iff in B2 as [B2|B2]; [exact B2|]. exfalso.
        revert ts Et A. induction (getButtonText L b) as [|c cs IH]; intros ts Et A; [injection Et as <-; discriminate|].
        cbn [forallb mapM] in *. apply andb_true_iff in B2 as [C1 C2]. destruct c; [discriminate|]. cbn [display_cell bind] in Et.
        apply bind_inv in Et as (ts' & Et & E'). injection E' as <-. cbn [any_text existsb orb] in A.
        apply (IH (fun c Ic => B1 c (or_intror Ic)) C2 ts' Et A). }
    destruct T as (isMod & ts & -> & Hf). cbn [bind]. unfold dgetM at 1. rewrite Ep. cbn [of_opt bind].
    destruct (any_text ts); [|eexists; reflexivity]. specialize (Hf eq_refl). unfold dhas in Hf. unfold dgetM. destruct (dget defaultFingermap b); [|discriminate].
    eexists; reflexivity.
  - rewrite E. cbn [bind]. exists ds, (w, h). split; [reflexivity|]. apply mapM_Ok_inv, Forall2_length in E. rewrite <- E. reflexivity.
Qed.

(** The same for what is drawn, without mentioning positions *)
Theorem C53_shadows s width fm marked L heat display rows ds w h d d' r hf : sane s width -> (0 <= shadowOffset s <= buttonMargin s)%Q ->
  render s width L fm marked heat display rows = Ok (ds, (w, h)) ->
  In d ds -> In d' ds -> d_button d <> d_button d' -> d_shadow d = Some (r, hf) -> let c := d_cap d' in
  (r_x r + r_w r <= r_x c \/ r_x c + r_w c <= r_x r \/ r_y r + r_h r <= r_y c \/ r_y c + r_h c <= r_y r)%Q.
Proof.
  intros Sa Ho E I I' Ne Esh. unfold render in E. apply bind_inv in E as ([m wh] & Ec & E). apply bind_inv in E as (ds' & E2 & E). injection E as <- E. cbn [fst snd] in *. subst wh.
  apply mapM_Ok_inv in E2.
  assert (G : forall d, In d ds' -> exists i j, key_at rows i j (d_button d) /\ draw_key s width L fm marked heat display m (d_button d) = Ok d).
  { intros e Ie. assert (X : exists b, In b (keys rows) /\ draw_key s width L fm marked heat display m b = Ok e).
    { clear - E2 Ie. fold (keys rows) in E2. induction E2 as [|b d l l' Hd _ IH]; [destruct Ie|]. destruct Ie as [<-|Ie]; [exists b; split; [left; reflexivity|exact Hd]|].
      destruct (IH Ie) as (b' & Ib & Hb). exists b'. split; [right; exact Ib|exact Hb]. }
    destruct X as (b & Ib & Hb). assert (Eb : d_button e = b) by (destruct (draw_key_inv _ _ _ _ _ _ _ _ _ _ Hb) as (? & ? & ? & ? & ? & _ & _ & _ & ->); reflexivity).
    rewrite Eb. unfold keys in Ib. apply in_flat_map in Ib as ([l r0] & Ir & Ib). apply In_nth_error in Ir as (i & Ei). apply In_nth_error in Ib as (j & Ej).
    exists i, j. split; [exists l, r0; split; [exact Ei|exact Ej]|exact Hb]. }
  destruct (G d I) as (i & j & K & Ed). destruct (G d' I') as (i' & j' & K' & Ed').
  assert (Nij : (i, j) <> (i', j')).
  { intros X. injection X as <- <-. destruct K as (l & r0 & El & Ej). destruct K' as (l' & r0' & El' & Ej'). congruence. }
  refine (C53_shadow _ _ _ _ _ _ _ _ _ _ _ _ _ _ _ _ _ _ _ _ _ Sa Ho Ec K K' Nij Ed Ed' Esh).
Qed.
(** With the default settings no shadow of a key reaches another key. *)
Theorem C53_shipped_shadow L heat display ds w h d d' r hf :
  render defaultSettings kb_widthof L defaultFingermap kb_markedof heat display kb_rows = Ok (ds, (w, h)) ->
  In d ds -> In d' ds -> d_button d <> d_button d' -> d_shadow d = Some (r, hf) -> let c := d_cap d' in
  (r_x r + r_w r <= r_x c \/ r_x c + r_w c <= r_x r \/ r_y r + r_h r <= r_y c \/ r_y c + r_h c <= r_y r)%Q.
Proof.
  intros E I I' Ne Esh. refine (C53_shadows _ _ _ _ _ _ _ _ _ _ _ _ _ _ _ kb_sane _ E I I' Ne Esh). split; apply Qle_bool_iff; reflexivity.
Qed.

(** The modifier of a third layer is drawn with an arrow to the upper right. *)
Example C53_arrow_example : let L := layout_new [mkLayer [frozenset []] []; mkLayer [frozenset ["El_shift"]] []; mkLayer [frozenset ["Dl_caps"]] []] in
  isModifier L (frozenset ["Dl_caps"]) = true /\
  match draw_key defaultSettings (fun _ => 2%Q) L [("Dl_caps", (LEFT, LITTLE))] (fun _ => false) (fun _ => 0%Q) (fun t => Ok t) [("Dl_caps", (0%Q, 0%Q))] "Dl_caps" with
  | Ok d => map l_text (filter (fun x => negb (l_shadow x)) (d_labels d)) = [[0x2B67%N]]
  | Raise _ => False
  end.
Proof. vm_compute. split; reflexivity. Qed.

(** * C54 *)
Section C54.
  Variables (combining is_cf : N -> bool) (uname : N -> option text).
  Notation disp := (displayText combining is_cf uname).
  Theorem C54_nonempty t d : disp t = Ok d -> d <> [].
  Proof.
    unfold displayText. destruct (forallb combining t) eqn:E; [intros [= <-]; discriminate|]. assert (Ne : t <> []) by (intros ->; discriminate).
    assert (I : inv t <> []). { unfold inv. destruct (dget invMap t) as [s|] eqn:D; [|exact Ne]. apply dget_In in D. cbn in D.
      decompose [or] D; try contradiction; match goal with H : (_, _) = (_, _) |- _ => injection H as <- <- end; discriminate. }
    destruct t as [|c [|c' t]]; [congruence| |intros [= <-]; exact I]. destruct (is_cf c); [|intros [= <-]; exact I].
    destruct (uname c) as [n|]; [|intros [= <-]; exact I]. intros H. apply bind_inv in H as (s & _ & H). injection H as <-. discriminate.
  Qed.
  (** Single characters never come out as combining, named format, tab, newline,
      blank, backspace or narrow no-break space characters. *)
  Definition plain (t : text) : Prop :=
    forall c, t = [c] -> combining c = false /\ (is_cf c = true -> uname c = None) /\ ~ In c [9; 10; 32; 8; 0x202F]%N.
  (** The replacement characters are ordinary. *)
  Definition ordinary : Prop := forall c, In c [0x25CC; 0x2B7E; 0x21B3; 0x2423; 0x2326; 91; 93]%N -> combining c = false /\ is_cf c = false.
  Lemma inv_cases t : (inv t = t /\ forall c, t = [c] -> ~ In c [9; 10; 32; 8; 0x202F]%N) \/ (exists c, In c [0x2B7E; 0x21B3; 0x2423; 0x2326]%N /\ inv t = [c]) \/
    inv t = [91; 78; 78; 66; 83; 80; 93]%N.
  Proof.
    unfold inv. destruct (dget invMap t) as [s|] eqn:D.
    - apply dget_In in D. cbn in D. decompose [or] D; try contradiction; match goal with H : (_, _) = (_, _) |- _ => injection H as <- <- end;
        try (right; left; eexists; split; [|reflexivity]; cbn; tauto). right; right; reflexivity.
    - left. split; [reflexivity|]. intros c -> I. apply dget_None in D. apply D. cbn in *.
      decompose [or] I; try contradiction; subst; auto 10.
  Qed.
  Theorem C54_plain t d : ordinary -> disp t = Ok d -> plain d.
  Proof.
    intros O H. unfold displayText in H. destruct (forallb combining t) eqn:E.
    - injection H as <-. intros c Ec. destruct t; [|discriminate]. injection Ec as <-. destruct (O 0x25CC%N) as [O1 O2]; [cbn; tauto|].
      split; [exact O1|]. split; [congruence|]. cbn. intros K. decompose [or] K; try contradiction; discriminate.
    - assert (I : (forall c, t = [c] -> is_cf c = true -> uname c = None) -> d = inv t -> plain d).
      { intros Hn ->. destruct (inv_cases t) as [[-> Hc]|[(c & Ic & ->)| ->]].
        - intros c ->. split; [cbn in E; rewrite andb_true_r in E; exact E|]. split; [exact (Hn c eq_refl)|exact (Hc c eq_refl)].
        - intros c' [= <-]. destruct (O c) as [O1 O2]; [cbn in *; tauto|]. split; [exact O1|]. split; [congruence|].
          cbn in Ic. decompose [or] Ic; try contradiction; subst; cbn; intros K; decompose [or] K; try contradiction; discriminate.
        - intros c [=]. }
      destruct t as [|c [|c' t]]; [discriminate| |injection H as <-; apply I; [discriminate|reflexivity]].
      destruct (is_cf c) eqn:Ecf; [|injection H as <-; apply I; [intros c' [= <-] K; congruence|reflexivity]].
      destruct (uname c) as [n|] eqn:En; [|injection H as <-; apply I; [intros c' [= <-] _; exact En|reflexivity]].
      apply bind_inv in H as (s & _ & H). injection H as <-. intros c' Ec. destruct s; discriminate.
  Qed.
  (** Displaying what is displayed changes nothing. *)
  Theorem C54_idempotent t d : ordinary -> disp t = Ok d -> disp d = Ok d.
  Proof.
    intros O H. pose proof (C54_plain t d O H) as P. pose proof (C54_nonempty t d H) as Ne.
    assert (Hnc : forallb combining d = false).
    { unfold displayText in H. destruct (forallb combining t) eqn:E.
      - injection H as <-. cbn. destruct (O 0x25CC%N) as [-> _]; [cbn; tauto|]. reflexivity.
      - assert (I : d = inv t -> forallb combining d = false).
        { intros ->. destruct (inv_cases t) as [[-> _]|[(c & Ic & ->)| ->]]; [exact E| |].
          - cbn. destruct (O c) as [-> _]; [cbn in *; tauto|reflexivity].
          - cbn. destruct (O 91%N) as [-> _]; [cbn; tauto|reflexivity]. }
        destruct t as [|c [|c' t]]; [discriminate| |apply I; congruence]. destruct (is_cf c); [|apply I; congruence].
        destruct (uname c); [|apply I; congruence]. apply bind_inv in H as (s & _ & H). injection H as <-. cbn.
        destruct (O 91%N) as [-> _]; [cbn; tauto|reflexivity]. }
    unfold displayText. rewrite Hnc.
    assert (I : inv d = d).
    { unfold inv. destruct (dget invMap d) as [s'|] eqn:D; [|reflexivity]. exfalso. apply dget_In in D. cbn in D.
      decompose [or] D; try contradiction; match goal with H : (_, _) = (_, _) |- _ => injection H as <- <- end;
        destruct (P _ eq_refl) as (_ & _ & K); apply K; cbn; tauto. }
    destruct d as [|c [|c' d]]; [congruence| |rewrite I; reflexivity]. destruct (P c eq_refl) as (_ & Pn & _).
    destruct (is_cf c); [|rewrite I; reflexivity]. rewrite (Pn eq_refl), I. reflexivity.
  Qed.
  (** Everything else is shown as it is, *)
  Theorem C54_unchanged t : (exists c, In c t /\ combining c = false) -> (forall c, t = [c] -> is_cf c = false /\ ~ In c [9; 10; 32; 8; 0x202F]%N) ->
    disp t = Ok t.
  Proof.
    intros (c & Ic & Hc) H. unfold displayText.
    assert (E : forallb combining t = false) by (destruct (forallb combining t) eqn:E; [rewrite forallb_forall in E; specialize (E c Ic); congruence|reflexivity]).
    rewrite E. assert (I : inv t = t).
    { unfold inv. destruct (dget invMap t) as [s'|] eqn:D; [|reflexivity]. exfalso. apply dget_In in D. cbn in D.
      decompose [or] D; try contradiction; match goal with H : (_, _) = (_, _) |- _ => injection H as <- <- end; destruct (H _ eq_refl) as [_ K]; apply K; cbn; tauto. }
    destruct t as [|a [|b t]]; [destruct Ic| |rewrite I; reflexivity]. destruct (H a eq_refl) as [-> _]. rewrite I. reflexivity.
  Qed.
  (** The abbreviation of a name consists of the initials of its words, which are
      separated by blanks or hyphens; the word "to" is skipped. *)
  Definition joinw (w : text) (l : list (N * text)) : text := w ++ flat_map (fun sw => fst sw :: snd sw) l.
  Definition is_to (w : text) : bool := mem w [[84; 79]; [84; 111]; [116; 79]; [116; 111]]%N.
  (** "to" does not end the name and is not repeated *)
  Fixpoint to_inside (l : list (N * text)) : Prop :=
    match l with
    | [] => True
    | (_, w) :: l' => (is_to w = true -> match l' with (_, w') :: _ => is_to w' = false | [] => False end) /\ to_inside l'
    end.
  Definition word0 (w : text) : Prop := w <> [] /\ forall c, In c w -> nonword c = false.
  Fixpoint spaced (ws : list text) : text := match ws with [] => [] | w :: ws' => 32%N :: w ++ spaced ws' end.
  Lemma initials_words w l : word0 w -> (forall c v, In (c, v) l -> In c [32; 45]%N /\ word0 v) -> to_inside l ->
    short_name (joinw w l) = Ok (map (hd 0%N) (w :: filter (fun v => negb (is_to v)) (map snd l))).
  Proof.
    intros [Nw Ww] Hl Ht. unfold short_name.
    set (bl := fun c : N => if N.eqb c 45 then 32%N else c).
    assert (Wid : forall v, (forall c, In c v -> nonword c = false) -> map bl v = v /\ ~ In 32%N v).
    { clear. intros v Hv. split.
      - rewrite <- (map_id v) at 2. apply map_ext_in. intros c I. specialize (Hv c I). unfold bl. destruct (N.eqb_spec c 45) as [->|]; [discriminate Hv|reflexivity].
      - intros I. specialize (Hv _ I). discriminate Hv. }
    assert (M : map bl (joinw w l) = w ++ spaced (map snd l)).
    { unfold joinw. rewrite map_app. rewrite (proj1 (Wid w Ww)). f_equal. clear - Hl Wid. induction l as [|[c v] l IH]; [reflexivity|].
      cbn [flat_map spaced map fst snd app]. destruct (Hl c v (or_introl eq_refl)) as [Ic [_ Wv]]. rewrite map_app, (proj1 (Wid v Wv)), IH by (intros c' v' I; apply Hl; right; exact I).
      cbn in Ic. decompose [or] Ic; try contradiction; subst c; reflexivity. }
    rewrite M. clear M.
    (* the words kept *)
    assert (S1 : forall v t, (forall c, In c v -> nonword c = false) -> sub_to (v ++ t) = v ++ sub_to t).
    { clear. intros v t. induction v as [|c v IH]; intros Hv; [reflexivity|]. assert (Hc := Hv c (or_introl eq_refl)).
      assert (E := IH (fun c I => Hv c (or_intror I))). change ((c :: v) ++ t) with (c :: (v ++ t)).
      cbn [sub_to]. rewrite Hc. cbn [andb]. rewrite E. cbn [app]. destruct (v ++ t) as [|b1 [|b2 [|b3 r]]]; reflexivity. }
    assert (To : forall a b, is_ci a 84 && is_ci b 79 = is_to [a; b]).
    { clear. intros a b. unfold is_to, is_ci. cbn. destruct (N.eqb_spec a 84) as [->|Na]; [|destruct (N.eqb_spec a 116) as [->|Na']];
        try (destruct (N.eqb_spec b 79) as [->|Nb]; [|destruct (N.eqb_spec b 111) as [->|Nb']]); try reflexivity; cbn;
        repeat (rewrite (proj2 (N.eqb_neq _ _)) by assumption); cbn; reflexivity. }
    assert (S3 : forall v r, word0 v -> is_to v = false -> (exists q, r = 32%N :: q) \/ r = [] -> sub_to (32%N :: v ++ r) = 32%N :: v ++ sub_to r).
    { clear - S1 To. intros v r [Nv Wv] Ev Hr. rewrite <- (S1 v r Wv). destruct v as [|a v]; [congruence|]. cbn [app].
      assert (K : forall b c d t', v ++ r = b :: c :: t' -> d = hd 0%N (b :: c :: t') -> is_ci a 84 && is_ci b 79 && nonword c = false).
      { intros b c d t' Eq _. destruct v as [|b' v].
        - destruct Hr as [[q ->]| ->]; [|discriminate]. injection Eq as <- _. cbn. rewrite andb_false_r. reflexivity.
        - injection Eq as <- Eq. destruct v as [|c' v].
          + rewrite To, Ev. reflexivity.
          + injection Eq as <- _. rewrite (Wv c') by (cbn; tauto). apply andb_false_r. }
      cbn [sub_to]. destruct (v ++ r) as [|b [|c t']] eqn:Eq; [reflexivity|reflexivity|]. change (nonword 32%N) with true. cbn [andb].
      rewrite (K b c _ t' eq_refl eq_refl). reflexivity. }
    assert (Hfr : forall ws, (exists q, spaced ws = 32%N :: q) \/ spaced ws = []).
    { clear. intros [|u ws]; [right; reflexivity|left; cbn; eauto]. }
    assert (S2 : forall l, (forall v, In v (map snd l) -> word0 v) -> to_inside l ->
      sub_to (spaced (map snd l)) = spaced (filter (fun v => negb (is_to v)) (map snd l))).
    { clear - S1 S3 To Hfr. intros l. induction l as [|[c v] l IH]; intros Hl Ht; [reflexivity|]. cbn [map snd spaced filter].
      destruct Ht as [Hto Ht]. assert (Wv := Hl v (or_introl eq_refl)). assert (IH' := IH (fun u I => Hl u (or_intror I)) Ht).
      destruct (is_to v) eqn:Ev; cbn [negb spaced].
      - destruct l as [|[c' v'] l]; [destruct (Hto eq_refl)|]. specialize (Hto eq_refl). cbn [map snd spaced filter] in *. rewrite Hto in *. cbn [negb spaced] in *.
        assert (Wv'   : word0 v') by (apply Hl; cbn; tauto). rewrite <- IH'. set (R := spaced (map snd l)).
        assert (HR : (exists q, R = 32%N :: q) \/ R = []) by exact (Hfr (map snd l)). clearbody R. cbn [app].
        rewrite (S3 v' R Wv' Hto HR). destruct v as [|a [|b [|? ?]]]; try discriminate Ev; [cbn in Ev; rewrite ?andb_false_r in Ev; discriminate Ev|
          |cbn in Ev; rewrite ?andb_false_r in Ev; discriminate Ev].
        rewrite <- (S1 v' _ (proj2 Wv')). rewrite <- To in Ev. apply andb_true_iff in Ev as [Ev1 Ev2]. cbn [app sub_to]. rewrite Ev1, Ev2. reflexivity.
      - rewrite <- IH'. set (R := spaced (map snd l)).
        assert (HR : (exists q, R = 32%N :: q) \/ R = []) by exact (Hfr (map snd l)). clearbody R. cbn [app].
        rewrite (S3 v R Wv Ev HR). reflexivity. }
    rewrite (S1 w _ Ww), S2; [|intros v I; apply in_map_iff in I as ([c v'] & <- & I); exact (proj2 (Hl _ _ I))|exact Ht].
    assert (Hk : forall v, In v (filter (fun v => negb (is_to v)) (map snd l)) -> word0 v).
    { intros v I. apply filter_In in I as [I _]. apply in_map_iff in I as ([c v'] & <- & I). exact (proj2 (Hl _ _ I)). }
    revert Hk. generalize (filter (fun v => negb (is_to v)) (map snd l)). clear - Nw Ww Wid. intros ws Hk.
    assert (Sp : forall w t, ~ In 32%N w -> split_sp (w ++ t) = match split_sp t with u :: us => (w ++ u) :: us | [] => [] end).
    { clear. intros w t. induction w as [|c w IH]; intros N; [destruct t as [|c t]; [reflexivity|]; cbn; destruct (N.eqb c 32); [reflexivity|]; destruct (split_sp t); reflexivity|].
      cbn [app split_sp]. destruct (N.eqb_spec c 32) as [->|_]; [destruct N; left; reflexivity|]. rewrite IH by (intros I; apply N; right; exact I).
      destruct (split_sp t) eqn:E; [|reflexivity]. exfalso. destruct t as [|x t]; [discriminate E|]. cbn in E. destruct (N.eqb x 32); [discriminate E|]. destruct (split_sp t); discriminate E. }
    assert (Sf : split_sp (w ++ spaced ws) = w :: ws).
    { revert w Nw Ww. induction ws as [|u ws IH]; intros w Nw Ww; rewrite Sp by exact (proj2 (Wid w Ww)); cbn [spaced app].
      - cbn. rewrite app_nil_r. reflexivity.
      - destruct (Hk u (or_introl eq_refl)) as [Nu Wu]. cbn [split_sp]. rewrite (IH (fun v I => Hk v (or_intror I)) u Nu Wu). cbn. rewrite app_nil_r. reflexivity. }
    rewrite Sf. unfold initials. clear Sf. revert w Nw Ww. induction ws as [|u ws IH]; intros w Nw Ww.
    - destruct w as [|c w]; [congruence|reflexivity].
    - destruct (Hk u (or_introl eq_refl)) as [Nu Wu]. cbn [mapM]. specialize (IH (fun v I => Hk v (or_intror I)) u Nu Wu). cbn [mapM] in IH. rewrite IH.
      destruct w as [|c w]; [congruence|reflexivity].
  Qed.
  (** Words consist of the letters, digits and underscores of ASCII. *)
  Definition word (w : text) : Prop := w <> [] /\ forall c, In c w -> (48 <= c <= 57 \/ 65 <= c <= 90 \/ 97 <= c <= 122 \/ c = 95)%N.
  Theorem C54_initials w l : word w -> (forall c v, In (c, v) l -> In c [32; 45]%N /\ word v) -> to_inside l ->
    short_name (joinw w l) = Ok (map (hd 0%N) (w :: filter (fun v => negb (is_to v)) (map snd l))).
  Proof.
    assert (W : forall v, word v -> word0 v) by (intros v [N H]; split; [exact N|]; intros c I; specialize (H c I); unfold nonword; lia).
    intros Hw Hl Ht. apply initials_words; [apply W, Hw| |exact Ht]. intros c v I. destruct (Hl c v I) as [A B]. split; [exact A|apply W, B].
  Qed.
End C54.
(** including characters that cannot be seen, contrary to the docstring *)
Theorem C54_renderable_refuted : exists combining is_cf uname t, ordinary combining is_cf /\
  combining 0x301%N = true /\ is_cf 0x200B%N = true /\
  In t [[0xA0%N]; [0x301; 97]%N; [0x200B; 0x200B]%N] /\ displayText combining is_cf uname t = Ok t.
Proof.
  exists (fun c => N.eqb c 0x301), (fun c => N.eqb c 0x200B), (fun _ => None), [0x200B; 0x200B]%N.
  split; [|split; [reflexivity|split; [reflexivity|split; [cbn; tauto|reflexivity]]]].
  intros c I. cbn in I. decompose [or] I; try contradiction; subst; split; reflexivity.
Qed.
(** RIGHT-TO-LEFT MARK and ZERO WIDTH JOINER *)
Example C54_example : let n1 := [82; 73; 71; 72; 84; 45; 84; 79; 45; 76; 69; 70; 84; 32; 77; 65; 82; 75]%N in
  let n2 := [90; 69; 82; 79; 32; 87; 73; 68; 84; 72; 32; 74; 79; 73; 78; 69; 82]%N in
  let d := displayText (fun c => N.eqb c 0x64B) (fun c => mem c [0x200F; 0x200D]%N) (fun c => dget [(0x200F%N, n1); (0x200D%N, n2)] c) in
  d [0x200F%N] = Ok [91; 82; 76; 77; 93]%N /\ d [0x200D%N] = Ok [91; 90; 87; 74; 93]%N /\ d [0x64B%N] = Ok [0x25CC; 0x64B]%N /\ d [97; 0x64B]%N = Ok [97; 0x64B]%N.
Proof. repeat split; reflexivity. Qed.
Example C54_initials_example : let w := [82; 73; 71; 72; 84]%N in let l := [(45, [84; 79]); (45, [76; 69; 70; 84]); (32, [77; 65; 82; 75])]%N in
  word w /\ (forall c v, In (c, v) l -> In c [32; 45]%N /\ word v) /\ to_inside l /\ short_name (joinw w l) = Ok [82; 76; 77]%N.
Proof.
  split; [split; [discriminate|intros c I; cbn in I; decompose [or] I; try contradiction; subst; lia]|]. split; [|split; [cbn; repeat split; discriminate|reflexivity]].
  intros c v I. cbn in I. decompose [or] I; try contradiction; match goal with H : (_, _) = (_, _) |- _ => injection H as <- <- end;
    (split; [cbn; tauto|split; [discriminate|intros c' I'; cbn in I'; decompose [or] I'; try contradiction; subst; lia]]).
Qed.
Print Assumptions C51_total.
Print Assumptions C51_positions.
Print Assumptions C51_apart.
Print Assumptions C51_within.
Print Assumptions C51_neighbours.
Print Assumptions C52_keys.
Print Assumptions C52_last.
Print Assumptions C52_firsts.
Print Assumptions C53_caps.
Print Assumptions C53_within.
Print Assumptions C53_shadow.
Print Assumptions C53_used.
Print Assumptions C53_labels.
Print Assumptions C53_offset.
Print Assumptions C53_quadrants.
Print Assumptions C53_arrow.
Print Assumptions C53_label.
Print Assumptions C53_total.
Print Assumptions C53_shipped.
Print Assumptions C53_shadows.
Print Assumptions C53_shipped_shadow.
Print Assumptions C54_nonempty.
Print Assumptions C54_plain.
Print Assumptions C54_idempotent.
Print Assumptions C54_unchanged.
Print Assumptions C54_initials.
Print Assumptions C54_renderable_refuted.
