(** C72-C77: the exporters (render.py:302-468, 514-585). *)
From Coq Require Import QArith Ascii Permutation.
From Verif Require Import Base KeyboardModel LayoutModel LayoutProofs DataKeyboard DataLayouts ShippedProofs PropsLayout PropsRender ExportModel ExportSpec ExportProofs.
Close Scope Q_scope.
Open Scope string_scope.
Open Scope list_scope.

Definition lulua_layers : list layer := shipped_layers data_ar_lulua.
Lemma ibm_ok : kbd_ok ibmpc105.
Proof. unfold kbd_ok. apply nodupb_NoDup. vm_compute. reflexivity. Qed.
(** A small layout: Dl1 and El2 write 'a', 'b' and, with a shift key, 'A', 'B'. *)
Definition small : list layer := [
  mkLayer [frozenset []] [("Dl1", CText [97%N]); ("El2", CText [98%N])];
  mkLayer [frozenset ["El_shift"]; frozenset ["Er_shift"]] [("Dl1", CText [65%N]); ("El2", CText [66%N])]].
Definition key_named (n : string) : kbutton :=
  match find (fun k => String.eqb (kb_name k) n) (keys ibmpc105) with Some k => k | None => mkKB Letter "" 1 false None "" None [] 0 end.

(** * C72: xmodmap *)
Theorem C72_plain kb ls lines b l : kbd_ok kb -> renderXmodmap kb (layout_new ls) = Ok lines ->
  taken_x kb b -> ~ is_modifier ls (kb_name b) ->
  (forall y, In y (keys kb) -> is_modifier ls (kb_name y) -> kb_xorg y <> kb_xorg b) ->
  nth_error ls 0 = Some l -> x_types lines None (kb_xorg b) = one_char (dget (llayout l) (kb_name b)).
Proof. apply x_plain. Qed.
Theorem C72_held kb ls lines b x i l : kbd_ok kb -> renderXmodmap kb (layout_new ls) = Ok lines ->
  taken_x kb b -> ~ is_modifier ls (kb_name b) ->
  (forall y, In y (keys kb) -> is_modifier ls (kb_name y) -> kb_xorg y <> kb_xorg b) ->
  In x (keys kb) -> nth_error ls i = Some l -> In (frozenset [kb_name x]) (lmods l) ->
  (forall j l', i < j -> nth_error ls j = Some l' -> ~ In (frozenset [kb_name x]) (lmods l')) ->
  (forall y, In y (keys kb) -> is_modifier ls (kb_name y) -> kb_xorg y = kb_xorg x -> y = x) ->
  x_types lines (Some (kb_xorg x)) (kb_xorg b) = one_char (dget (llayout l) (kb_name b)).
Proof. apply x_held. Qed.
(** A modifier key gets the actions of its (last) layer. *)
Theorem C72_modifiers kb ls lines x i l : kbd_ok kb -> renderXmodmap kb (layout_new ls) = Ok lines ->
  In x (keys kb) -> nth_error ls i = Some l -> In (frozenset [kb_name x]) (lmods l) ->
  (forall j l', i < j -> nth_error ls j = Some l' -> ~ In (frozenset [kb_name x]) (lmods l')) ->
  (forall y, In y (keys kb) -> is_modifier ls (kb_name y) -> kb_xorg y = kb_xorg x -> y = x) ->
  exists v, effective lines (kb_xorg x) = Some v /\ map xaction_of v = map Some (modifier_actions i).
Proof.
  intros Hk E Hx El Hm Hl Hu. destruct (modifier_line Hk E Hx El Hm Hl Hu) as (v & Ev & Ef). exists v. split; [exact Ef|].
  clear - Ev. do 4 (destruct i as [|i]; [cbn [nth_error layerMap] in Ev; injection Ev as <-; reflexivity|]). destruct i; discriminate Ev.
Qed.
(** All eight columns are written, in the order of the X11 shift levels. *)
Theorem C72_columns kb ls lines b : kbd_ok kb -> renderXmodmap kb (layout_new ls) = Ok lines ->
  taken_x kb b -> ~ is_modifier ls (kb_name b) ->
  (forall y, In y (keys kb) -> is_modifier ls (kb_name y) -> kb_xorg y <> kb_xorg b) ->
  exists ss, effective lines (kb_xorg b) = Some ss /\ List.length ss = 8 /\
    forall c i, nth_error [Some 0; Some 1; Some 2; Some 4; Some 3; None; Some 5; Some 6] c = Some (Some i) ->
      option_map keysym_char (nth_error ss c) = Some (match nth_error ls i with Some l => one_char (dget (llayout l) (kb_name b)) | None => None end).
Proof. apply x_columns_spec. Qed.
(** No key code is assigned twice. *)
Theorem C72_once kb ls lines : kbd_ok kb -> renderXmodmap kb (layout_new ls) = Ok lines ->
  (forall y, In y (keys kb) -> is_modifier ls (kb_name y) -> taken_x kb y) -> NoDup (map xcode lines).
Proof. apply x_once. Qed.
Theorem C72_once_needs_taken : exists ls lines, renderXmodmap ibmpc105 (layout_new ls) = Ok lines /\ ~ NoDup (map xcode lines).
Proof.
  pose (ls := [mkLayer [frozenset []] [("Dl1", CText [97%N])]; mkLayer [frozenset ["Fl_space"]] [("Dl1", CText [65%N])]]).
  exists ls. destruct (renderXmodmap ibmpc105 (layout_new ls)) as [lines|] eqn:E; [|vm_compute in E; discriminate]. exists lines. split; [reflexivity|].
  intros N. apply nodupb_NoDup in N. assert (X : match renderXmodmap ibmpc105 (layout_new ls) with Ok l => nodupb (map xcode l) | _ => true end = false) by (vm_compute; reflexivity).
  rewrite E in X. congruence.
Qed.
(** ar-lulua: every text can be typed with every one of the modifiers of its layer. *)
Definition x_code (n : string) : N := kb_xorg (key_named n).
Definition x_hold (m : bset) : option (option N) :=
  match elems m with [] => Some None | [b] => Some (Some (x_code b)) | _ => None end.
Definition lulua_okb (lines : list xline) : bool :=
  forallb (fun l => forallb (fun m => forallb (fun bt =>
    mem (fst bt) (map kb_name (keys ibmpc105)) && match x_hold m, one_char (Some (snd bt)) with
    | Some h, Some c => eqb (x_types lines h (x_code (fst bt))) (Some c) | _, _ => false end) (llayout l)) (lmods l)) lulua_layers.
Theorem C72_shipped : exists lines, renderXmodmap ibmpc105 (layout_new lulua_layers) = Ok lines /\
  forall l m b t, In l lulua_layers -> In m (lmods l) -> In (b, CText t) (llayout l) ->
    exists k h c, In k (keys ibmpc105) /\ kb_name k = b /\ x_hold m = Some h /\ t = [c] /\ x_types lines h (kb_xorg k) = Some c.
Proof.
  destruct (renderXmodmap ibmpc105 (layout_new lulua_layers)) as [lines|] eqn:E; [|vm_compute in E; discriminate]. exists lines. split; [reflexivity|].
  assert (X : match renderXmodmap ibmpc105 (layout_new lulua_layers) with Ok lines => lulua_okb lines | _ => false end = true) by (vm_compute; reflexivity).
  rewrite E in X. intros l m b t Il Im Ib. unfold lulua_okb in X. rewrite forallb_forall in X. specialize (X l Il). rewrite forallb_forall in X. specialize (X m Im).
  rewrite forallb_forall in X. specialize (X (b, CText t) Ib). cbn [fst snd] in X. apply andb_prop in X. destruct X as [X1 X2].
  destruct (x_hold m) as [h|]; [|discriminate]. destruct (one_char (Some (CText t))) as [c|] eqn:Ec; [|discriminate]. apply (proj1 (eqb_eq _ _)) in X2.
  unfold x_code, key_named in X2. apply mem_In, in_map_iff in X1. destruct X1 as (k & En & Ik).
  assert (F : find (fun k => String.eqb (kb_name k) b) (keys ibmpc105) = Some k).
  { assert (B : button ibmpc105 b = Ok k) by (apply button_spec; [apply ibm_ok|auto]). unfold button in B. destruct (find _ (keys ibmpc105)); cbn [of_opt] in B; congruence. }
  rewrite F in X2. exists k, h, c. split; [exact Ik|]. split; [exact En|]. split; [reflexivity|]. split; [|exact X2].
  cbn [one_char] in Ec. destruct t as [|c' [|]]; [discriminate|congruence|discriminate].
Qed.
Example C72_example : (match renderXmodmap ibmpc105 (layout_new small) with Ok lines =>
    (x_types lines None (x_code "Dl1"), x_types lines (Some (x_code "El_shift")) (x_code "Dl1"), x_types lines (Some (x_code "Er_shift")) (x_code "El2"))
  | _ => (None, None, None) end) = (Some 97%N, Some 65%N, Some 66%N).
Proof. vm_compute. reflexivity. Qed.

(** * C73: which layouts xmodmap can be generated for *)
Theorem C73_success kb ls : kbd_ok kb -> mods_on kb ls -> ((exists lines, renderXmodmap kb (layout_new ls) = Ok lines) <->
  (forall i l b, (i < 7 \/ i = N.to_nat 99999)%nat -> nth_error ls i = Some l -> taken_x kb b -> ~ is_modifier ls (kb_name b) -> simple_cell (dget (llayout l) (kb_name b))) /\
  (forall i l m, nth_error ls i = Some l -> In m (lmods l) -> m = frozenset [] \/ (i < 4 /\ exists b, m = frozenset [b]))).
Proof. apply x_success. Qed.
(** Only one of the Arabic layouts can be exported. *)
Theorem C73_shipped d : In d all_layouts ->
  ((exists lines, renderXmodmap ibmpc105 (layout_new (shipped_layers d)) = Ok lines) <-> d = data_ar_lulua \/ d = data_null).
Proof.
  intros I. split.
  - intros (lines & E). destruct I as [<-|[<-|[<-|[<-|[<-|[<-|[<-|[<-|[<-|[<-|[<-|[<-|[<-|[]]]]]]]]]]]]]]; try (vm_compute in E; discriminate E); auto.
  - intros [-> | ->]; eexists; vm_compute; reflexivity.
Qed.
Theorem C73_shipped_refuted : exists d, In d all_layouts /\ renderXmodmap ibmpc105 (layout_new (shipped_layers d)) = Raise TypeError.
Proof. exists data_ar_asmo663. split; [right; left; reflexivity|]. vm_compute. reflexivity. Qed.

(** * C74: Keyman *)
Theorem C74_rules kb ord ls f : kbd_ok kb -> (forall m, Permutation (ord m) (elems m)) -> renderKeyman kb ord (layout_new ls) = Ok f ->
  Forall2 (rule_for kb) (typed ls) (krules f).
Proof. intros; eapply k_rules; eauto. Qed.
Theorem C74_warned kb ord ls f m : kbd_ok kb -> (forall m, Permutation (ord m) (elems m)) -> renderKeyman kb ord (layout_new ls) = Ok f ->
  (In m (kwarned f) <-> (exists l, In l ls /\ In m (lmods l)) /\ unsupported kb m).
Proof. intros; eapply k_warned; eauto. Qed.
Theorem C74_success kb ord ls : kbd_ok kb -> (forall m, Permutation (ord m) (elems m)) -> mods_on kb ls -> cells_on kb ls ->
  ((exists f, renderKeyman kb ord (layout_new ls) = Ok f) <-> all_text ls).
Proof. intros; apply k_success; auto. Qed.
(** Shipped layouts: exported without error, and no two rules disagree about what a combination of keys writes. *)
Definition k_code (n : string) : string := kb_keyman (key_named n).
Definition k_set (x : bset * string * cell) : bset := frozenset (map k_code (elems (fst (fst x))) ++ [k_code (snd (fst x))]).
#[local] Instance EqDec_cell : EqDec cell.
Proof.
  apply (EqDec_inj (fun c => match c with CText t => Some t | COther => None end)).
  intros [] []; congruence.
Defined.
Definition clash (ls : list layer) : bool :=
  let q := map (fun x => (k_set x, snd x)) (typed ls) in
  existsb (fun r => existsb (fun r' => eqb (fst r) (fst r') && negb (eqb (snd r) (snd r'))) q) q.
Lemma clash_spec ls x x' : clash ls = false -> In x (typed ls) -> In x' (typed ls) -> k_set x = k_set x' -> snd x = snd x'.
Proof.
  unfold clash. set (q := map _ (typed ls)). intros C I I' E. destruct (eqb_spec (snd x) (snd x')) as [|N]; [assumption|exfalso].
  assert (X : existsb (fun r => existsb (fun r' => eqb (fst r) (fst r') && negb (eqb (snd r) (snd r'))) q) q = true); [|congruence].
  apply existsb_exists. exists (k_set x, snd x). split; [apply in_map_iff; eauto|]. apply existsb_exists. exists (k_set x', snd x'). split; [apply in_map_iff; eauto|].
  cbn [fst snd]. rewrite Bool.andb_true_iff, Bool.negb_true_iff. split; [apply eqb_eq, E|]. destruct (eqb_spec (snd x) (snd x')); congruence.
Qed.
Lemma k_code_spec n c : has_keyman ibmpc105 n c -> k_code n = c.
Proof.
  intros H. apply kcode_spec in H; [|apply ibm_ok]. unfold kcode, button in H. unfold k_code, key_named. destruct (find _ (keys ibmpc105)); cbn [of_opt bind] in H; congruence.
Qed.
Lemma k_set_spec x r : rule_for ibmpc105 x r -> frozenset (kkeys r) = k_set x.
Proof.
  intros (t & ms & mc & bc & _ & P & F & B & -> & _). apply bset_ext. intros c. unfold k_set. rewrite !In_frozenset, !in_app_iff, (k_code_spec _ _ B).
  assert (E : mc = map k_code ms) by (clear - F; induction F as [|? ? ? ? H F IH]; cbn [map]; [reflexivity|]; rewrite (k_code_spec _ _ H), IH; reflexivity).
  rewrite E, !in_map_iff. split; intros [(y & <- & I)|X]; auto; left; exists y; (split; [reflexivity|]); [eapply Permutation_in; [exact P|exact I]|eapply Permutation_in; [apply Permutation_sym, P|exact I]].
Qed.
Theorem C74_shipped d ord : In d all_layouts -> (forall m, Permutation (ord m) (elems m)) ->
  exists f, renderKeyman ibmpc105 ord (layout_new (shipped_layers d)) = Ok f /\
    forall r r' t t', In r (krules f) -> In r' (krules f) -> (forall k, In k (kkeys r) <-> In k (kkeys r')) -> rule_text r t -> rule_text r' t' -> t = t'.
Proof.
  intros I Ho. pose (names := map kb_name (keys ibmpc105)).
  assert (B : forallb (fun d => forallb (fun l => forallb (fun m => forallb (fun b => mem b names) (elems m)) (lmods l) && forallb (fun bc => mem (fst bc) names && negb (eqb (snd bc) COther)) (llayout l)) (shipped_layers d)
     && negb (clash (shipped_layers d))) all_layouts = true) by (vm_compute; reflexivity).
  rewrite forallb_forall in B. specialize (B d I). apply andb_prop in B. destruct B as [B1 B2]. rewrite forallb_forall in B1. apply Bool.negb_true_iff in B2.
  assert (HM : mods_on ibmpc105 (shipped_layers d)).
  { intros l m b Il Im Ib. specialize (B1 l Il). apply andb_prop in B1. destruct B1 as [B1 _]. rewrite forallb_forall in B1. specialize (B1 m Im). rewrite forallb_forall in B1. apply mem_In, (B1 b Ib). }
  assert (HC : cells_on ibmpc105 (shipped_layers d)).
  { intros l b c Il Ib. specialize (B1 l Il). apply andb_prop in B1. destruct B1 as [_ B1]. rewrite forallb_forall in B1. specialize (B1 _ Ib). apply andb_prop in B1. apply mem_In, B1. }
  assert (HT : all_text (shipped_layers d)).
  { intros l b c Il _ Ib ->. specialize (B1 l Il). apply andb_prop in B1. destruct B1 as [_ B1]. rewrite forallb_forall in B1. specialize (B1 _ Ib). apply andb_prop in B1. destruct B1 as [_ B1].
    cbn [snd] in B1. rewrite eqb_refl in B1. discriminate B1. }
  destruct (proj2 (@C74_success ibmpc105 ord (shipped_layers d) ibm_ok Ho HM HC) HT) as [f Ef].
  exists f. split; [exact Ef|]. pose proof (@C74_rules _ _ _ _ ibm_ok Ho Ef) as F. intros r r' t t' Ir Ir' Ek Et Et'.
  assert (X : forall r, In r (krules f) -> exists x, In x (typed (shipped_layers d)) /\ rule_for ibmpc105 x r).
  { clear - F. induction F as [|x r xs rs H F IH]; [intros r []|]. intros r0 [<-|I0]; [exists x; split; [left; reflexivity|exact H]|]. destruct (IH r0 I0) as (y & Iy & Hy). exists y. split; [right; exact Iy|exact Hy]. }
  destruct (X r Ir) as (x & Ix & Hx). destruct (X r' Ir') as (x' & Ix' & Hx').
  assert (Es : snd x = snd x').
  { apply (clash_spec (shipped_layers d)); auto. rewrite <- (k_set_spec _ _ Hx), <- (k_set_spec _ _ Hx'). apply bset_ext. intros k. rewrite !In_frozenset. apply Ek. }
  destruct Hx as (u & _ & _ & _ & Eu & _ & _ & _ & _ & Hu). destruct Hx' as (u' & _ & _ & _ & Eu' & _ & _ & _ & _ & Hu').
  assert (Inj : forall a b : text, map Some a = map Some b -> a = b).
  { clear. induction a as [|c a IH]; intros [|c' b] E; try discriminate; [reflexivity|]. cbn [map] in E. f_equal; [congruence|apply IH; congruence]. }
  assert (t = u) as -> by (apply Inj; unfold rule_text in *; congruence). assert (t' = u') as -> by (apply Inj; unfold rule_text in *; congruence). congruence.
Qed.
Example C74_example : renderKeyman ibmpc105 elems (layout_new [mkLayer [frozenset ["El_shift"]; frozenset ["Dl_caps"]] [("Dl1", CText [0x644; 0x627]%N)]]) =
  Ok (mkKF [mkK ["SHIFT"; "K_A"] ["U+0644"; "U+0627"]; mkK ["CAPS"; "K_A"] ["U+0644"; "U+0627"]] [frozenset ["Dl_caps"]]).
Proof. vm_compute. reflexivity. Qed.

(** * C75: Anysoft keyboard *)
Theorem C75_rows nfc kb ls rows : kbd_ok kb -> renderAsk nfc kb (layout_new ls) = Ok rows ->
  exists body chosen, rows = body ++ [mkAR None false true [None; None; None]] /\
    (forall i row, In (i, row) chosen <-> nth_error (removelast kb) i = Some row /\ exists b, In b (fst row ++ snd row) /\ ask_key ls b) /\
    (forall n m ir jr, n < m -> nth_error chosen n = Some ir -> nth_error chosen m = Some jr -> fst ir < fst jr) /\
    Forall2 (fun ir r => ask_row nfc ls (snd ir) (fst ir) r) chosen body.
Proof. apply ask_rows_order. Qed.
Theorem C75_success nfc kb ls : kbd_ok kb -> ((exists rows, renderAsk nfc kb (layout_new ls) = Ok rows) <->
  forall i row b, nth_error kb i = Some row -> S i < List.length kb -> In b (fst row ++ snd row) -> ask_key ls b -> ls <> [] /\ text_key ls (kb_name b)).
Proof. apply ask_success. Qed.
(** The keys of a row can be wider than the screen: six keys of 16.67 %. *)
Theorem C75_width_refuted : exists kb ls rows r w, kbd_ok kb /\ renderAsk (fun t => t) kb (layout_new ls) = Ok rows /\ In r rows /\ awidth r = Some w /\ (Z.of_nat (List.length (akeys r)) * w > 10000)%Z.
Proof.
  pose (bt n := mkKB Letter n 1 false None "" None [] 0).
  pose (kb := [(map bt ["a"; "b"; "c"; "d"; "e"; "f"], []); ([bt "g"], [])] : kbd). exists kb, [mkLayer [frozenset []] []].
  eexists. eexists. exists 1667%Z. split; [unfold kbd_ok; apply nodupb_NoDup; vm_compute; reflexivity|]. split; [vm_compute; reflexivity|]. split; [left; reflexivity|]. split; [reflexivity|]. vm_compute. reflexivity.
Qed.
(** Return, space and backspace are missing on every exported keyboard: the keys of the bottom row have no codes. *)
Theorem C75_bottom_refuted : exists kb ls rows, kbd_ok kb /\ renderAsk (fun t => t) kb (layout_new ls) = Ok rows /\
  (forall r k c, In r rows -> In (Some k) (akeys r) -> In c (acodes k) -> c <> 10%N /\ c <> 32%N) /\ (exists l b, In l ls /\ In (b, CText [32%N]) (llayout l)) /\
  exists r, In r rows /\ abottom r = true /\ forall k, In k (akeys r) -> k = None.
Proof.
  exists ibmpc105, [mkLayer [frozenset []] [("Dl1", CText [97%N]); ("Fr_space", CText [32%N]); ("CD_ret", CText [10%N])]].
  set (ls := [_]). destruct (renderAsk (fun t => t) ibmpc105 (layout_new ls)) as [rows|] eqn:E; [|vm_compute in E; discriminate]. exists rows. split; [apply ibm_ok|]. split; [reflexivity|]. split; [|split].
  - assert (X : match renderAsk (fun t => t) ibmpc105 (layout_new ls) with Ok rows => forallb (fun r => forallb (fun k => match k with Some k => forallb (fun c => negb (N.eqb c 10) && negb (N.eqb c 32)) (acodes k) | None => true end) (akeys r)) rows | _ => false end = true) by (vm_compute; reflexivity).
    rewrite E in X. intros r k c Ir Ik Ic. rewrite forallb_forall in X. specialize (X r Ir). rewrite forallb_forall in X. specialize (X (Some k) Ik). cbn beta iota in X. rewrite forallb_forall in X. specialize (X c Ic).
    destruct (N.eqb_spec c 10), (N.eqb_spec c 32); cbn in X; try discriminate; auto.
  - eexists. exists "Fr_space". split; [left; reflexivity|]. right. left. reflexivity.
  - apply ask_rows in E; [|apply ibm_ok]. destruct E as (body & -> & _). eexists. split; [apply in_app_iff; right; left; reflexivity|]. split; [reflexivity|]. cbn. intuition congruence.
Qed.
Example C75_example : exists rows, renderAsk (fun t => t) ibmpc105 (layout_new small) = Ok rows /\ List.length rows = 5 /\
  exists r, nth_error rows 2 = Some r /\ nth_error (akeys r) 0 = Some (Some (mkA [97%N] [97%N] [65%N] [65%N])) /\ awidth r = Some 833%Z.
Proof. eexists. split; [vm_compute; reflexivity|]. split; [reflexivity|]. eexists. split; [reflexivity|]. split; reflexivity. Qed.

(** * C76: macOS *)
Theorem C76_types kb ls m i mods l code t : kbd_ok kb -> renderKeylayout kb (layout_new ls) = Ok m ->
  nth_error [""; "anyShift caps?"; "caps"; "anyOption"] i = Some mods -> nth_error ls i = Some l ->
  (In t (m_types m mods code) <-> exists k, In k (keys kb) /\ kb_macos k = Some code /\ In (kb_name k, CText t) (llayout l)).
Proof. apply mac_types. Qed.
Theorem C76_success kb ls : kbd_ok kb -> ((exists m, renderKeylayout kb (layout_new ls) = Ok m) <->
  forall l b c, In l ls -> In (b, c) (llayout l) -> c <> COther /\ exists k, In k (keys kb) /\ kb_name k = b /\ kb_macos k <> None).
Proof. apply mac_success. Qed.
(** Layers after the fourth cannot be selected. *)
Theorem C76_layers_refuted : exists kb ls m l b t, kbd_ok kb /\ renderKeylayout kb (layout_new ls) = Ok m /\ In l ls /\ In (b, CText t) (llayout l) /\
  forall mods code, ~ In t (m_types m mods code).
Proof.
  pose (lay (n : string) c := mkLayer [frozenset [n]] [("Dl1", CText [c])]).
  exists ibmpc105, [lay "a" 97%N; lay "b" 98%N; lay "c" 99%N; lay "d" 100%N; lay "e" 101%N]. eexists. exists (lay "e" 101%N), "Dl1", [101%N].
  split; [apply ibm_ok|]. split; [vm_compute; reflexivity|]. split; [cbn; tauto|]. split; [left; reflexivity|].
  intros mods code H. apply In_m_types in H. destruct H as (i & ks & Is & Im & Ik). cbn in Is, Im.
  destruct Is as [X|[X|[X|[X|[]]]]]; injection X as <- <-; destruct Im as [Y|[Y|[Y|[Y|[Y|[]]]]]]; try discriminate Y; injection Y as <-; destruct Ik as [Z|[]]; discriminate Z.
Qed.
(** Most shipped layouts use a key without code. *)
Theorem C76_shipped_refuted : exists d, In d all_layouts /\ renderKeylayout ibmpc105 (layout_new (shipped_layers d)) = Raise KeyError.
Proof. exists data_ar_asmo663. split; [right; left; reflexivity|]. vm_compute. reflexivity. Qed.
(** The file for ar-lulua contains a character that XML documents must not have. *)
Theorem C76_xml_refuted : exists m ik ct c, renderKeylayout ibmpc105 (layout_new lulua_layers) = Ok m /\ In ik (mmaps m) /\ In ct (snd ik) /\ In c (snd ct) /\ xml_char c = false.
Proof.
  assert (X : match renderKeylayout ibmpc105 (layout_new lulua_layers) with Ok m => existsb (fun ik => existsb (fun ct => existsb (fun c => negb (xml_char c)) (snd ct)) (snd ik)) (mmaps m) | _ => false end = true) by (vm_compute; reflexivity).
  destruct (renderKeylayout ibmpc105 (layout_new lulua_layers)) as [m|]; [|discriminate]. exists m.
  apply existsb_exists in X. destruct X as (ik & I1 & X). apply existsb_exists in X. destruct X as (ct & I2 & X). apply existsb_exists in X. destruct X as (c & I3 & X).
  exists ik, ct, c. split; [reflexivity|]. split; [exact I1|]. split; [exact I2|]. split; [exact I3|]. destruct (xml_char c); [discriminate|reflexivity].
Qed.
Example C76_example : exists m c, renderKeylayout ibmpc105 (layout_new small) = Ok m /\ kb_macos (key_named "Dl1") = Some c /\
  m_types m "" c = [[97%N]] /\ m_types m "anyShift caps?" c = [[65%N]] /\ m_types m "caps" c = [].
Proof. eexists. eexists. split; [vm_compute; reflexivity|]. split; [vm_compute; reflexivity|]. vm_compute. auto. Qed.

(** * C77: Klavaro *)
Theorem C77_lines nfc kb ls t : renderKlavaro nfc kb (layout_new ls) = Ok t -> letter_rows kb <> [] ->
  (forall b i l s, In b (List.concat (letter_rows kb)) -> i < 2 -> nth_error ls i = Some l -> shown nfc (dget (llayout l) (kb_name b)) = Some s -> ~ In 10%N s) ->
  exists low up, lines_of t = low ++ up ++ [[]] /\ Forall2 (klavaro_line nfc ls 0) (letter_rows kb) low /\ Forall2 (klavaro_line nfc ls 1) (letter_rows kb) up.
Proof. apply klavaro_lines. Qed.
Theorem C77_success nfc kb ls : (exists t, renderKlavaro nfc kb (layout_new ls) = Ok t) <->
  forall b, In b (List.concat (letter_rows kb)) -> 2 <= List.length ls /\ text_key ls (kb_name b).
Proof. apply klavaro_success. Qed.
(** One character per key, as Klavaro expects, only if every text is one character. *)
Theorem C77_columns nfc ls i bs line : klavaro_line nfc ls i bs line ->
  (forall b l s, In b bs -> nth_error ls i = Some l -> shown nfc (dget (llayout l) (kb_name b)) = Some s -> List.length s <= 1) -> List.length line = List.length bs.
Proof. apply klavaro_columns. Qed.
Theorem C77_columns_refuted : exists d t w bs, In d all_layouts /\ renderKlavaro (fun t => t) ibmpc105 (layout_new (shipped_layers d)) = Ok t /\
  nth_error (lines_of t) 0 = Some w /\ nth_error (letter_rows ibmpc105) 0 = Some bs /\ List.length bs < List.length w.
Proof.
  exists data_ar_alramly. eexists. eexists. eexists. split; [left; reflexivity|]. split; [vm_compute; reflexivity|]. split; [reflexivity|]. split; [reflexivity|]. vm_compute. lia.
Qed.
Example C77_example : exists t, renderKlavaro (fun t => t) ibmpc105 (layout_new small) = Ok t /\
  exists w, nth_error (lines_of t) 6 = Some w /\ nth_error w 0 = Some 65%N /\ List.length w = 12.
Proof. eexists. split; [vm_compute; reflexivity|]. eexists. split; [reflexivity|]. split; reflexivity. Qed.

Print Assumptions C72_plain.
Print Assumptions C72_held.
Print Assumptions C72_modifiers.
Print Assumptions C72_columns.
Print Assumptions C72_once.
Print Assumptions C72_once_needs_taken.
Print Assumptions C72_shipped.
Print Assumptions C73_success.
Print Assumptions C73_shipped.
Print Assumptions C73_shipped_refuted.
Print Assumptions C74_rules.
Print Assumptions C74_warned.
Print Assumptions C74_success.
Print Assumptions C74_shipped.
Print Assumptions C75_rows.
Print Assumptions C75_success.
Print Assumptions C75_width_refuted.
Print Assumptions C75_bottom_refuted.
Print Assumptions C76_types.
Print Assumptions C76_success.
Print Assumptions C76_layers_refuted.
Print Assumptions C76_shipped_refuted.
Print Assumptions C76_xml_refuted.
Print Assumptions C77_lines.
Print Assumptions C77_success.
Print Assumptions C77_columns.
Print Assumptions C77_columns_refuted.
