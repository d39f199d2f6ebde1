(** C66-C71: the generated Windows keyboard driver. *)
From Verif Require Import Base KeyboardModel LayoutModel LayoutProofs DataKeyboard DataLayouts KlcModel PropsKlc DataWinkbd WinkbdModel WinkbdSpec WinkbdProofs.
Open Scope string_scope.
Open Scope list_scope.

#[local] Opaque vkval vkflags wchars scancodeToVk.
Definition kb_codes (kb : list (list kbutton * list kbutton)) : list (string * list N) :=
  map (fun b => (kb_name b, kb_windows b)) (flat_map (fun r => fst r ++ snd r) kb).

(** * C66: two tables of the same thing *)
(** The key with this scancode on the standard keyboard and its name in KLC
    files; digits have no prefix there. *)
Definition klc_name (n : string) : text :=
  match n with String "N" (String "U" (String "M" (String "B" (String "E" (String "R" s))))) => lit s | _ => lit n end.
Definition same_key (v : text) (b : string) : Prop :=
  exists sc n fl, In (b, sc) (kb_codes ibmpc105) /\ dget qwertyScancodeToVk sc = Some (VK n :: fl) /\ klc_name n = v.
Definition same_keyb (v : text) (b : string) : bool :=
  existsb (fun bs => eqb (fst bs) b && match dget qwertyScancodeToVk (snd bs) with Some (VK n :: _) => eqb (klc_name n) v | _ => false end) (kb_codes ibmpc105).
Lemma same_keyb_spec v b : same_keyb v b = true -> same_key v b.
Proof.
  unfold same_keyb. intros H. apply existsb_exists in H as ([b' sc] & Hi & H). cbn [fst snd] in H.
  apply andb_true_iff in H as [Hb H]. apply (proj1 (eqb_eq _ _)) in Hb. subst b'.
  destruct (dget qwertyScancodeToVk sc) as [[|[n|n] fl]|] eqn:E; try discriminate. apply (proj1 (eqb_eq _ _)) in H.
  exists sc, n, fl. auto.
Qed.
(** The KLC importer and the driver generator agree on where a key is, but for
    two keys. *)
Theorem C66_same_key_partial v b : In (v, b) vkToButton -> v <> lit "OEM_3" -> v <> lit "OEM_5" -> same_key v b.
Proof.
  intros Hi H3 H5. assert (E : forallb (fun vb => same_keyb (fst vb) (snd vb) || eqb (fst vb) (lit "OEM_3") || eqb (fst vb) (lit "OEM_5")) vkToButton = true) by (vm_compute; reflexivity).
  rewrite forallb_forall in E. specialize (E _ Hi). cbn [fst snd] in E. apply orb_true_iff in E as [E|E].
  - apply orb_true_iff in E as [E|E]; [apply same_keyb_spec, E|]. apply (proj1 (eqb_eq _ _)) in E. contradiction.
  - apply (proj1 (eqb_eq _ _)) in E. contradiction.
Qed.
(** OEM_3 is taken for the key of 1, OEM_5 for a key that does not exist. *)
Theorem C66_same_key_refuted : exists v b b', In (v, b) vkToButton /\ same_key v b' /\ b' <> b /\
  exists v', v' <> v /\ In (v', b) vkToButton /\ same_key v' b.
Proof.
  exists (lit "OEM_3"), "Bl2", "Bl1". split; [left; reflexivity|]. split; [apply same_keyb_spec; vm_compute; reflexivity|].
  split; [discriminate|]. exists (lit "1"). split; [discriminate|]. split; [right; left; reflexivity|].
  apply same_keyb_spec. vm_compute. reflexivity.
Qed.
Theorem C66_missing_refuted : exists v b b', In (v, b) vkToButton /\ same_key v b' /\ b' <> b /\ ~ In b (map fst (kb_codes ibmpc105)).
Proof.
  exists (lit "OEM_5"), "Cr0", "Dr1". split; [apply dget_In; vm_compute; reflexivity|]. split; [apply same_keyb_spec; vm_compute; reflexivity|].
  split; [discriminate|]. apply mem_nIn. vm_compute. reflexivity.
Qed.
(** So importing a file with both keys loses the text of one. *)
Theorem C66_lost_refuted : exists int16 nfd file ls, fromKlc int16 nfd file = Ok ls /\
  KlcSpec.klc_file file [map lit ["02"; "1"; "0"; "0031"]; map lit ["29"; "OEM_3"; "0"; "0060"]] /\
  int16 (lit "0031") = Some 49%Z /\ forall i b, dget (nth i ls []) b <> Some (nfd [49%N]).
Proof.
  exists hexint, (fun t => t), [lit "LAYOUT"; lit "02 1 0 0031"; lit "29 OEM_3 0 0060"], [[("Bl2", [96%N])]; []; []; []; []; []].
  split; [vm_compute; reflexivity|]. split; [|split; [reflexivity|]].
  - exists [], (lit "LAYOUT"), [lit "02 1 0 0031"; lit "29 OEM_3 0 0060"], []. split; [reflexivity|]. split; [constructor|].
    split; [exists [], []; split; [constructor|reflexivity]|]. split; [|split; [|left; reflexivity]].
    + constructor; [|constructor; [|constructor]].
      * apply (KlcSpec.written_words [] _ (lit "02 1 0 0031") [] []); [constructor| |constructor|left; reflexivity].
        apply (spaced_glue "02" [(" ", "1"); (" ", "0"); (" ", "0031")]). vm_compute. reflexivity.
      * apply (KlcSpec.written_words [] _ (lit "29 OEM_3 0 0060") [] []); [constructor| |constructor|left; reflexivity].
        apply (spaced_glue "29" [(" ", "OEM_3"); (" ", "0"); (" ", "0060")]). vm_compute. reflexivity.
    + repeat constructor; try discriminate; intros w ws E [x Hx]; cbn in E; inversion E; subst; discriminate.
  - intros i b. do 7 (destruct i as [|i]; [cbn; try destruct (String.eqb b "Bl2"); discriminate|]). destruct i; discriminate.
Qed.

(** * C67: scancodes to virtual keys *)
Definition sc_known (m : scmap) : Prop := forall sc ks, dget m sc = Some ks -> Forall known ks.
Lemma driver_defs m cm d : makeDriverSources m cm = Ok d -> d_defs d = all_defs /\ d_ausVK d = ausVK m /\
  d_E0 d = vscToVk 0xe0 m /\ d_E1 d = vscToVk 0xe1 m /\ vkToWchar cm = Ok (d_wch d, d_tables d).
Proof.
  unfold makeDriverSources. destruct (vkToWchar cm) as [[w t]|]; cbn [of_opt bind]; [|discriminate].
  intros E. apply (f_equal (fun r => match r with Ok x => x | Raise _ => d end)) in E. subst d. cbn [d_defs d_ausVK d_E0 d_E1 d_wch d_tables fst snd]. auto.
Qed.
(** The array for unprefixed codes: 128 entries, 0xFF for unassigned codes. *)
Theorem C67_plain m cm d : makeDriverSources m cm = Ok d -> sc_known m ->
  List.length (d_ausVK d) = 128 /\
  forall c, (c < 128)%N -> exists names, nth_error (d_ausVK d) (N.to_nat c) = Some names /\
    or_value (d_defs d) names (match dget m [c] with Some ks => orvals ks | None => 0xFF%N end).
Proof.
  intros E Hk. destruct (driver_defs _ _ _ E) as (-> & -> & _). split.
  - unfold ausVK. now rewrite map_length, seq_length.
  - intros c Hc. eexists. split; [apply ausVK_nth, Hc|]. destruct (dget m [c]) as [ks|] eqn:Ec.
    + apply or_value_known. eapply Hk, Ec.
    + apply (or_value_known [KVk (vk "NULL")]). constructor; [|constructor]. apply knownb_known. vm_compute. reflexivity.
Qed.
(** The tables for prefixed codes: sorted, complete, nothing else, and a code
    that is in the map is found. *)
Theorem C67_prefixed_partial m cm d e : makeDriverSources m cm = Ok d -> sc_known m -> dict_wf m ->
  e = 0xe0%N \/ e = 0xe1%N -> (forall c, dget m [e; c] <> None -> c <> 0%N) ->
  let t := if N.eqb e 0xe0 then d_E0 d else d_E1 d in
  ascending t /\
  (forall c names, In (c, names) t -> exists ks, dget m [e; c] = Some ks /\ or_value (d_defs d) names (orvals ks)) /\
  (forall c ks, dget m [e; c] = Some ks -> exists names, scan t c = Found names /\ or_value (d_defs d) names (orvals ks)).
Proof.
  intros E Hk Hm He Hz. destruct (driver_defs _ _ _ E) as (-> & _ & -> & -> & _). cbv zeta.
  assert (Et : (if N.eqb e 0xe0 then vscToVk 0xe0 m else vscToVk 0xe1 m) = vscToVk e m) by (destruct He; subst e; reflexivity).
  rewrite Et. split; [apply vscToVk_ascending, Hm|]. split.
  - intros c names Hi. apply vscToVk_In in Hi as (ks & Ek & ->); [|exact Hm]. exists ks. split; [exact Ek|]. eapply or_value_known, Hk, Ek.
  - intros c ks Ek. exists (enumOr ks). split; [apply vsc_scan; assumption|]. eapply or_value_known, Hk, Ek.
Qed.
(** The tables have no last entry: looking for any other code reads past the end. *)
Theorem C67_unterminated m cm d c : makeDriverSources m cm = Ok d -> dict_wf m ->
  (forall c', dget m [0xe0%N; c'] <> None -> c' <> 0%N) -> dget m [0xe0%N; c] = None -> scan (d_E0 d) c = OutOfBounds.
Proof.
  intros E Hm Hz Hc. destruct (driver_defs _ _ _ E) as (_ & _ & -> & _). rewrite <- (app_nil_r (vscToVk 0xe0 m)).
  rewrite scan_missing; [reflexivity|apply vsc_nonzero; assumption|]. intros names Hi. apply vscToVk_In in Hi as (ks & Ek & _); [congruence|exact Hm].
Qed.
Lemma sc_nonzero e c : dget scancodeToVk [e; c] <> None -> c <> 0%N.
Proof.
  intros H. destruct (dget scancodeToVk [e; c]) as [ks|] eqn:E; [|contradiction]. apply sc_get in E as (_ & _ & [(x & E & _)|(x & y & E & _ & Hy)]); [discriminate|]. congruence.
Qed.
Lemma sc_all_known : sc_known scancodeToVk.
Proof. intros sc ks E. apply sc_get in E. tauto. Qed.
Theorem C67_prefixed_refuted : exists L d c, renderWinKbd "ar-lulua" L (kb_codes ibmpc105) = Ok (Some d) /\ (c < 128)%N /\ scan (d_E0 d) c = OutOfBounds.
Proof.
  set (L := layout_new []).
  destruct (makeDriverSources scancodeToVk []) as [d|] eqn:E; [|vm_compute in E; discriminate].
  exists L, d, 1%N. split; [|split; [reflexivity|]].
  - unfold renderWinKbd. assert (Ew : wcharMap scancodeToVk L (kb_codes ibmpc105) = Ok []) by (vm_compute; reflexivity). rewrite Ew. cbn [eqb bind]. 
    change (eqb "ar-lulua" "ar-lulua") with true. cbv iota. rewrite E. reflexivity.
  - eapply C67_unterminated; [exact E|exact sc_wf|apply sc_nonzero|vm_compute; reflexivity].
Qed.
(** The hypotheses hold for the map of the renderer, which has 38 and one
    prefixed codes. *)
Example C67_example : dict_wf scancodeToVk /\ sc_known scancodeToVk /\ (forall e c, dget scancodeToVk [e; c] <> None -> c <> 0%N) /\
  (List.length (vscToVk 0xe0 scancodeToVk), List.length (vscToVk 0xe1 scancodeToVk)) = (38, 1) /\
  nth_error (ausVK scancodeToVk) 0x38 = Some ["VIRTUALKEY_LMENU"] /\ nth_error (ausVK scancodeToVk) 0x2b = Some ["VIRTUALKEY_OEM_102"].
Proof. split; [exact sc_wf|]. split; [exact sc_all_known|]. split; [exact sc_nonzero|]. vm_compute. repeat split. Qed.

(** * C68: names and modifiers *)
(** The name of every key, and no read past the end. *)
Theorem C68_names m cm d c : makeDriverSources m cm = Ok d -> c <> 0%N ->
  scan (d_names d) c = match dget qwertyScancodeToName [c] with Some s => Found (Some s) | None => NotFound end /\
  scan (d_namesExt d) c = match dget qwertyScancodeToName [0xe0%N; c] with Some s => Found (Some s) | None => NotFound end.
Proof.
  unfold makeDriverSources. destruct (vkToWchar cm) as [wt|]; cbn [of_opt bind]; [|discriminate].
  intros E. assert (En : d_names d = keyNames qwertyScancodeToName /\ d_namesExt d = keyNamesExt qwertyScancodeToName).
  { apply (f_equal (fun r => match r with Ok x => x | Raise _ => d end)) in E. subst d. cbn [d_names d_namesExt]. auto. }
  clear E. destruct En as [-> ->]. intros Hc. pose proof names_wf as Hm. split.
  - unfold keyNames. set (t := map _ _).
    assert (Hz : Forall (fun r => fst r <> 0%N) t) by (apply Forall_forall; intros r Hr; apply (proj1 (forallb_forall (fun r => negb (N.eqb (fst r) 0)) t)) in Hr; [intros E; rewrite E in Hr; discriminate|vm_compute; reflexivity]).
    assert (Hi : forall w, In (c, w) t <-> exists v, dget qwertyScancodeToName [c] = Some v /\ w = Some v)
      by (intros w; apply (table_In single_code (fun c => [c]) 0 (@Some string) _ Hm); auto using single_sel).
    destruct (dget qwertyScancodeToName [c]) as [s|] eqn:Es.
    + apply scan_found; [|exact Hz|apply Hi; eauto]. apply (table_ascending single_code (fun c => [c]) 0 (@Some string) _ Hm); auto using single_sel.
      intros a b. cbn. destruct (N.eqb_spec a b); lia.
    + rewrite scan_missing; [reflexivity|exact Hz|]. intros w Hw. apply Hi in Hw as (v & E & _). discriminate.
  - unfold keyNamesExt. set (t := map _ _).
    assert (Hz : Forall (fun r => fst r <> 0%N) t) by (apply Forall_forall; intros r Hr; apply (proj1 (forallb_forall (fun r => negb (N.eqb (fst r) 0)) t)) in Hr; [intros E; rewrite E in Hr; discriminate|vm_compute; reflexivity]).
    assert (Hi : forall w, In (c, w) t <-> exists v, dget qwertyScancodeToName [0xe0%N; c] = Some v /\ w = Some v)
      by (intros w; apply (table_In (prefixed 0xe0) (fun c => [0xe0%N; c]) 1 (@Some string) _ Hm); auto using prefixed_sel).
    destruct (dget qwertyScancodeToName [0xe0%N; c]) as [s|] eqn:Es.
    + apply scan_found; [|exact Hz|apply Hi; eauto]. apply (table_ascending (prefixed 0xe0) (fun c => [0xe0%N; c]) 1 (@Some string) _ Hm); auto using prefixed_sel.
      intros a b. cbn. destruct (N.eqb_spec a b); lia.
    + rewrite scan_missing; [reflexivity|exact Hz|]. intros w Hw. apply Hi in Hw as (v & E & _). discriminate.
Qed.
Definition modifiers : list N := map vk ["SHIFT"; "CONTROL"; "MENU"; "OEM_8"; "OEM_102"].
Lemma selects_eq m cm d s : makeDriverSources m cm = Ok d ->
  selects d s = if N.leb s 24 then match nth_error charModifiers (N.to_nat s) with Some n => if N.eqb n 0x0F then None else Some n | None => None end else None.
Proof.
  unfold makeDriverSources. destruct (vkToWchar cm) as [wt|]; cbn [bind]; [|discriminate].
  intros E. apply (f_equal (fun r => match r with Ok x => x | Raise _ => d end)) in E. subst d. reflexivity.
Qed.
(** Whatever keys are held, layer [i] is selected iff they are the modifiers
    meant for it. *)
Theorem C68_selects m cm d held i : makeDriverSources m cm = Ok d ->
  (selects d (shift_state held) = Some i <->
   exists ks, nth_error intended (N.to_nat i) = Some ks /\
     forall v, In v modifiers -> (In v (map side held) <-> In v (map vk ks))).
Proof.
  intros E. rewrite (selects_eq _ _ _ _ E). clear E.
  set (p := fun v => mem v (map side held)).
  assert (Hp : forall v, In v (map side held) <-> p v = true) by (intros v; symmetry; apply mem_In).
  assert (Em : modifiers = map fst vkToBitsTable) by (vm_compute; reflexivity).
  assert (Esh : shift_state held = fold_right N.lor 0%N (map snd (filter (fun vb => p (fst vb)) vkToBitsTable))) by reflexivity.
  rewrite Esh. clear Esh.
  assert (Eq : (exists ks, nth_error intended (N.to_nat i) = Some ks /\ forall v, In v modifiers -> (In v (map side held) <-> In v (map vk ks))) <->
               exists ks, nth_error intended (N.to_nat i) = Some ks /\ forallb (fun v => Bool.eqb (p v) (mem v (map vk ks))) modifiers = true).
  { split; intros (ks & E & H); exists ks; (split; [exact E|]).
    - apply forallb_forall. intros v Hv. apply Bool.eqb_true_iff. specialize (H v Hv). rewrite Hp in H. rewrite <- mem_In in H.
      destruct (p v), (mem v (map vk ks)); intuition.
    - intros v Hv. rewrite forallb_forall in H. specialize (H v Hv). apply (proj1 (Bool.eqb_true_iff _ _)) in H. rewrite Hp, H. apply mem_In. }
  rewrite Eq. clear Eq Hp Em.
  assert (Ev : modifiers = [0x10; 0x11; 0x12; 0xDF; 0xE2]%N) by (vm_compute; reflexivity).
  assert (Eb : vkToBitsTable = [(0x10, 1); (0x11, 2); (0x12, 4); (0xDF, 8); (0xE2, 16)]%N) by (vm_compute; reflexivity).
  rewrite Ev, Eb. clear Ev Eb. cbn [filter fst forallb].
  assert (Ei : exists im, im = map (map vk) intended) by eauto. 
  assert (Eim : map (map vk) intended = [[]; [0x10]; [0xE2]; [0xDF]; [0x10; 0xE2]; [0xDF; 0xE2]; [0x11]; [0x10; 0x11]; [0x10; 0xDF]]%N) by (vm_compute; reflexivity).
  assert (Ecm : charModifiers = [0;1;6;7;15;15;15;15;3;8;15;15;15;15;15;15;2;4;15;15;15;15;15;15;5]%N) by (vm_compute; reflexivity).
  rewrite Ecm. clear Ei Ecm.
  assert (En : forall (q : list N -> bool), (exists ks, nth_error intended (N.to_nat i) = Some ks /\ q (map vk ks) = true) <->
                (exists l, nth_error (map (map vk) intended) (N.to_nat i) = Some l /\ q l = true)).
  { intros q. split.
    - intros (ks & E & H). exists (map vk ks). split; [|exact H]. rewrite nth_error_map, E. reflexivity.
    - intros (l & E & H). rewrite nth_error_map in E. destruct (nth_error intended (N.to_nat i)) as [ks|]; [|discriminate]. cbn in E. exists ks. split; [reflexivity|]. congruence. }
  rewrite (En (fun l => Bool.eqb (p 0x10%N) (mem 0x10%N l) && (Bool.eqb (p 0x11%N) (mem 0x11%N l) && (Bool.eqb (p 0x12%N) (mem 0x12%N l) &&
     (Bool.eqb (p 0xDF%N) (mem 0xDF%N l) && (Bool.eqb (p 0xE2%N) (mem 0xE2%N l) && true)))))).
  rewrite Eim. clear En Eim. clearbody p.
  assert (Hi : forall n : N, Some n = Some i <-> N.to_nat n = N.to_nat i) by (intros n; rewrite N2Nat.inj_iff; split; congruence).
  destruct (p 0x10%N), (p 0x11%N), (p 0x12%N), (p 0xDF%N), (p 0xE2%N);
  match goal with |- ?a = Some i <-> _ => let x := eval vm_compute in a in change a with x end;
  match goal with
  | |- None = Some _ <-> _ => split; [discriminate|intros (l & E & H); exfalso]
  | |- _ => rewrite Hi; split; [intros <-; eexists; split; [reflexivity|reflexivity]|intros (l & E & H)]
  end;
  destruct (N.to_nat i) as [|[|[|[|[|[|[|[|[|[|k]]]]]]]]]]; cbn in E; try discriminate E; inversion E; subst l; cbn in H; try discriminate H; try reflexivity.
Qed.
Example C68_example : shift_state [vk "RSHIFT"; vk "OEM_102"; vk "A"] = 17%N /\ nth 17 charModifiers 15%N = 4%N /\
  nth_error intended 4 = Some ["SHIFT"; "OEM_102"] /\
  dget qwertyScancodeToName [0xe0%N; 0x38%N] = Some "Right Alt" /\ dget qwertyScancodeToName [0x02%N] = None.
Proof. vm_compute. repeat split. Qed.

(** * C69: virtual keys to characters *)
Definition keys_known (cm : list charrow) : Prop := Forall (fun r => known (KVk (rvk r))) cm.
Lemma found_columns d o v g r i : d_defs d = all_defs -> found_row o v g -> find (is_row v) g = Some r ->
  match o with Found w => Found (column d w i) | NotFound => NotFound | OutOfBounds => OutOfBounds end = Found (wide (nth i (snd r) None)).
Proof.
  intros Hd H E. unfold found_row in H. rewrite E in H. destruct H as (w & -> & Hw). f_equal. apply column_wide; assumption.
Qed.
Lemma find_app {A} (p : A -> bool) l l' : find p (l ++ l') = match find p l with Some x => Some x | None => find p l' end.
Proof. induction l as [|x l IH]; cbn; [reflexivity|]. destruct (p x); [reflexivity|exact IH]. Qed.
Lemma find_none_row v (l : list charrow) : ~ In v (map rvk l) -> find (is_row v) l = None.
Proof.
  induction l as [|x l IH]; cbn [map In find]; intros H; [reflexivity|]. unfold is_row at 1. destruct (N.eqb_spec (rvk x) v); [tauto|]. apply IH. tauto.
Qed.
Lemma sorted_rvk cm v : In v (map rvk (sorted_by (fun a b => Nat.leb (ncols a) (ncols b)) cm)) <-> In v (map rvk cm).
Proof.
  split; apply Permutation_in, Permutation_map; [|apply Permutation_sym]; apply sorted_by_perm.
Qed.
(** Every key types what its row says. *)
Theorem C69_typed m cm d r i : makeDriverSources m cm = Ok d -> keys_known cm -> NoDup (map rvk cm) -> In r cm ->
  char_of d (rvk r) i = Found (wide (nth i (snd r) None)).
Proof.
  intros E Hk Hn Hi. destruct (driver_defs _ _ _ E) as (Hd & _ & _ & _ & Ew).
  pose proof (driver_scan d cm _ _ (rvk r) Ew Hd eq_refl eq_refl Hk) as S. unfold char_of.
  eapply found_columns; [exact Hd|exact S|]. rewrite find_app, (find_unique (rvk r) _ r); [reflexivity| |  |reflexivity].
  - eapply Permutation_NoDup; [apply Permutation_map, Permutation_sym, sorted_by_perm|exact Hn].
  - apply (Permutation_in _ (Permutation_sym (sorted_by_perm _ _))), Hi.
Qed.
(** The number pad types digits unless the layout has its keys; any other key
    types nothing, and the search ends within the tables. *)
Theorem C69_numpad m cm d n : makeDriverSources m cm = Ok d -> keys_known cm -> n < 10 ->
  let v := vk ("NUMPAD" ++ chr1 (48 + N.of_nat n))%string in ~ In v (map rvk cm) ->
  char_of d v 0 = Found (Some (48 + N.of_nat n)%N).
Proof.
  intros E Hk Hn v Hv. destruct (driver_defs _ _ _ E) as (Hd & _ & _ & _ & Ew).
  pose proof (driver_scan d cm _ _ v Ew Hd eq_refl eq_refl Hk) as S. unfold char_of.
  rewrite (found_columns d _ v _ (v, 0%N, [Some (CText [48 + N.of_nat n])%N]) 0 Hd S).
  - cbn [snd nth wide]. rewrite N.mod_small by lia. destruct (N.eqb_spec (48 + N.of_nat n) 0xF000); [lia|reflexivity].
  - rewrite find_app, find_none_row by (rewrite sorted_rvk; exact Hv). subst v. clear - Hn.
    do 10 (destruct n as [|n]; [vm_compute; reflexivity|]). lia.
Qed.
Theorem C69_silent m cm d v i : makeDriverSources m cm = Ok d -> keys_known cm ->
  ~ In v (map rvk cm) -> ~ In v (map rvk numpad) -> char_of d v i = NotFound.
Proof.
  intros E Hk Hv Hp. destruct (driver_defs _ _ _ E) as (Hd & _ & _ & _ & Ew).
  pose proof (driver_scan d cm _ _ v Ew Hd eq_refl eq_refl Hk) as S. unfold char_of, found_row in *.
  rewrite find_app, find_none_row, find_none_row in S by (rewrite ?sorted_rvk; assumption). rewrite S. reflexivity.
Qed.
Theorem C69_in_bounds m cm d v i : makeDriverSources m cm = Ok d -> keys_known cm -> char_of d v i <> OutOfBounds.
Proof.
  intros E Hk. destruct (driver_defs _ _ _ E) as (Hd & _ & _ & _ & Ew).
  pose proof (driver_scan d cm _ _ v Ew Hd eq_refl eq_refl Hk) as S. unfold char_of, found_row in *.
  destruct (find _ _) as [r|]; [destruct S as (w & -> & _); discriminate|rewrite S; discriminate].
Qed.
(** Translation from characters to keys: a digit of the layout is not taken for
    one of the number pad. *)
Theorem C69_numpad_last m cm d r i c : makeDriverSources m cm = Ok d -> keys_known cm -> In r cm ->
  wide (nth i (snd r) None) = Some c ->
  exists r' j, In r' cm /\ wide (nth j (snd r') None) = Some c /\ key_for d c = Found (CName (cdefName (KVk (rvk r')))).
Proof.
  intros E Hk Hi Hc. destruct (driver_defs _ _ _ E) as (Hd & _ & _ & _ & Ew).
  set (q := fun r : charrow => existsb (fun s => eqb (wide s) (Some c)) (snd r)).
  pose proof (driver_find d cm _ _ (has_char d c) q Ew Hd eq_refl eq_refl Hk (fun r w Hr => has_char_row d c r w Hd Hr)) as S.
  rewrite find_app in S.
  destruct (find q (sorted_by _ cm)) as [r'|] eqn:F.
  - apply find_some in F as [F1 F2]. apply (Permutation_in _ (sorted_by_perm _ _)) in F1.
    unfold q in F2. apply existsb_exists in F2 as (s & Hs & Es). apply (proj1 (eqb_eq _ _)) in Es.
    apply In_nth with (d := None) in Hs as (j & _ & Ej). exists r', j. split; [exact F1|]. split; [congruence|].
    destruct S as (w & Ef & chars & _ & ->). unfold key_for. rewrite Ef. reflexivity.
  - exfalso. apply (find_none _ _) with (x := r) in F; [|apply (Permutation_in _ (Permutation_sym (sorted_by_perm _ _))), Hi].
    unfold q in F. assert (L : existsb (fun s => eqb (wide s) (Some c)) (snd r) = true); [|congruence].
    apply existsb_exists. exists (nth i (snd r) None). split; [|apply eqb_eq, Hc].
    destruct (Nat.lt_ge_cases i (List.length (snd r))) as [L|L]; [apply nth_In, L|]. rewrite nth_overflow in Hc by exact L. discriminate.
Qed.
(** Generation fails iff some text is not a single character. *)
Theorem C69_fails m cm : (exists d, makeDriverSources m cm = Ok d) <-> forall r s, In r cm -> In s (snd r) -> fine s.
Proof.
  assert (M : (exists d, makeDriverSources m cm = Ok d) <-> exists x, vkToWchar cm = Ok x).
  { unfold makeDriverSources. destruct (vkToWchar cm) as [x|]; cbn [of_opt bind]; split; intros [y E]; try discriminate; eauto. }
  rewrite M. clear M. set (sm := sorted_by (fun a b => Nat.leb (ncols a) (ncols b)) cm).
  assert (Hsm : forall r, In r sm <-> In r cm) by (intros r; split; apply Permutation_in; [|apply Permutation_sym]; apply sorted_by_perm).
  split.
  - intros [[wch tabs] E] r s Hr Hs. destruct (vkToWchar_ok _ _ _ E) as [H _]. apply Hsm in Hr.
    assert (G : In r (concat (map snd (char_groups cm)))) by (rewrite char_groups_concat; apply in_or_app; left; exact Hr).
    apply in_concat in G as (g & Hg & Hrg). apply in_map_iff in Hg as (gt & <- & Hg).
    clear - H Hg Hrg Hs. induction H as [|g t gs ts [_ (body & _ & Hb)] _ IH]; [destruct Hg|]. destruct Hg as [->|Hg]; [|apply IH, Hg].
    clear IH. induction Hb as [|x w l body (chars & Ec & _) _ IH]; [destruct Hrg|]. destruct Hrg as [->|Hrg]; [|apply IH, Hrg].
    apply toRepr_fine. apply mapM_Ok_inv in Ec. clear - Ec Hs. induction Ec as [|a b l chars Hab _ IH]; [destruct Hs|]. destruct Hs as [->|Hs]; eauto.
  - intros H. assert (R : forall r, In r cm -> exists w, row_of r w).
    { intros r Hr. destruct (mapM toRepr (snd r)) as [chars|] eqn:Ec; [eexists; exists chars; auto|].
      exfalso. apply mapM_Raise_inv in Ec as (s & Hs & Es). destruct (proj2 (toRepr_fine s) (H r s Hr Hs)). congruence. }
    assert (Gn : forall n g, (forall r, In r g -> In r cm) -> exists rows, generate n g = Ok rows).
    { intros n g Hg. assert (B : exists body, Forall2 row_of g body).
      { induction g as [|r g IH]; [exists []; constructor|]. destruct (R r (Hg r (or_introl eq_refl))) as [w Hw].
        destruct IH as [body Hb]; [intros x Hx; apply Hg; right; exact Hx|]. exists (w :: body). constructor; assumption. }
      destruct B as [body Hb]. eexists. apply generate_ok. eauto. }
    unfold vkToWchar. cbv zeta. fold sm.
    assert (T : exists ts, mapM (fun ng : nat * list charrow => do rows <- generate (fst ng) (snd ng); Ok (("", fst ng), rows)) (groupby ncols sm) = Ok ts).
    { pose proof (proj1 (groupby_spec ncols sm)) as Ec. assert (A : forall ng, In ng (groupby ncols sm) -> forall r, In r (snd ng) -> In r cm).
      { intros ng Hng r Hr. apply Hsm. rewrite <- Ec. apply in_concat. exists (snd ng). split; [apply in_map, Hng|exact Hr]. }
      revert A. generalize (groupby ncols sm). clear Ec. induction l as [|ng l IH]; intros A; [exists []; reflexivity|]. cbn [mapM].
      destruct (Gn (fst ng) (snd ng) (A ng (or_introl eq_refl))) as [rows Er]. rewrite Er. cbn [of_opt bind].
      destruct IH as [ts Et]; [intros x Hx; apply A; right; exact Hx|]. rewrite Et. cbn [of_opt bind]. eauto. }
    destruct T as [ts Et]. rewrite Et. cbn [of_opt bind].
    destruct (generate 1 numpad) as [np|] eqn:En; [cbn [of_opt bind]; eauto|]. vm_compute in En. discriminate.
Qed.
(** Characters of the layout beyond 16 bits do not survive. *)
Theorem C69_typed_needs_bmp : exists m cm d v c, makeDriverSources m cm = Ok d /\ keys_known cm /\ NoDup (map rvk cm) /\
  In (v, 0%N, [Some (CText [c])]) cm /\ char_of d v 0 <> Found (Some c).
Proof.
  destruct (makeDriverSources [] [(vk "A", 0%N, [Some (CText [0x1F600%N])])]) as [d|] eqn:E; [|vm_compute in E; discriminate].
  assert (K : keys_known [(vk "A", 0%N, [Some (CText [0x1F600%N])])]).
  { constructor; [|constructor]. apply knownb_known. vm_compute. reflexivity. }
  assert (Nd : NoDup (map rvk [(vk "A", 0%N, [Some (CText [0x1F600%N])])])) by (repeat constructor; intros []).
  exists [], [(vk "A", 0%N, [Some (CText [0x1F600%N])])], d, (vk "A"), 0x1F600%N. split; [exact E|]. split; [exact K|].
  split; [exact Nd|]. split; [left; reflexivity|].
  pose proof (C69_typed _ _ _ (vk "A", 0%N, [Some (CText [0x1F600%N])]) 0 E K Nd (or_introl eq_refl)) as T.
  change (rvk (vk "A", 0%N, [Some (CText [0x1F600%N])])) with (vk "A") in T. rewrite T. vm_compute. discriminate.
Qed.
Definition rows_example : list charrow :=
  [(vk "A", 0%N, [Some (CText [97%N]); Some (CText [65%N]); None]); (vk "NUMBER1", 0%N, [Some (CText [49%N])]);
   (vk "B", 0%N, [Some (CText [98%N]); None; Some (CText [0xF000%N])])].
Example C69_example :
  forallb (fun r => knownb (KVk (rvk r))) rows_example = true /\ nodupb (map rvk rows_example) = true /\
  match makeDriverSources [] rows_example with
  | Ok d => map fst (d_wch d) = [("", 1); ("", 3); ("Num", 1)] /\ key_for d 49 = Found (CName "VIRTUALKEY_NUMBER1") /\
            key_for d 50 = Found (CName "VIRTUALKEY_NUMPAD2") /\ char_of d (vk "A") 1 = Found (Some 65%N) /\
            char_of d (vk "B") 2 = Found None /\ char_of d (vk "NUMPAD7") 0 = Found (Some 55%N) /\ char_of d (vk "C") 0 = NotFound
  | Raise _ => False
  end /\ makeDriverSources [] [(vk "A", 0%N, [Some (CText [97%N; 98%N])])] = Raise PlainException.
Proof. vm_compute. repeat split. Qed.

(** * C70: the driver of the renderer *)
Definition has_text (L : layout) (b : string) : Prop := exists i c, nth_error (getButtonText L b) i = Some (Some c).
Definition button_vk (sc : list N) (v : N) : Prop := exists ks, dget scancodeToVk sc = Some ks /\ v = N.land (orvals ks) 0xFF.
Definition bmp (c : cell) : Prop := exists n, c = CText [n] /\ (n < 65536)%N /\ n <> 0xF000%N.
Lemma has_text_b L b : forallb (fun x : option cell => match x with None => true | Some _ => false end) (getButtonText L b) = false <-> has_text L b.
Proof.
  unfold has_text. generalize (getButtonText L b). induction l as [|[c|] l IH]; cbn [forallb].
  - split; [discriminate|intros (i & c & E); destruct i; discriminate].
  - split; [intros _; exists 0, c; reflexivity|reflexivity].
  - cbn [andb]. rewrite IH. split; intros (i & c & E); [exists (S i), c; exact E|]. destruct i as [|i]; [discriminate|]. exists i, c. exact E.
Qed.
Lemma wcharMap_In L keys cm r : wcharMap scancodeToVk L keys = Ok cm ->
  (In r cm <-> exists btn v, In btn (unique_sc keys) /\ has_text L (fst btn) /\ button_vk (snd btn) v /\ r = (v, 0%N, map toWindows (getButtonText L (fst btn)))).
Proof.
  unfold wcharMap. destruct (mapM _ _) as [rs|] eqn:E; cbn [of_opt bind]; [|discriminate]. intros E'. assert (cm = concat rs) as -> by congruence. clear E'.
  apply mapM_Ok_inv in E. rewrite in_concat.
  assert (G : forall btn x, wcharRow scancodeToVk L btn = Ok x ->
    (In r x <-> exists v, has_text L (fst btn) /\ button_vk (snd btn) v /\ r = (v, 0%N, map toWindows (getButtonText L (fst btn))))).
  { intros btn x. unfold wcharRow. cbv zeta. pose proof (has_text_b L (fst btn)) as Hb.
    destruct (forallb _ (getButtonText L (fst btn))).
    - intros Ex. assert (x = []) as -> by congruence. split; [intros []|]. intros (v & Ht & _). apply Hb in Ht. discriminate.
    - unfold dgetM. destruct (dget scancodeToVk (snd btn)) as [ks|] eqn:Ek; cbn [of_opt bind]; [|discriminate].
      destruct (sc_get _ _ Ek) as (_ & Ev & _). rewrite Ev. cbn [of_opt bind].
      set (row := map toWindows _). intros Ex. assert (x = [(N.land (orvals ks) 0xFF, 0%N, row)]) as -> by congruence. split.
      + intros [<-|[]]. eexists. split; [apply Hb; reflexivity|]. split; [exists ks; split; [exact Ek|reflexivity]|reflexivity].
      + intros (v & _ & (ks' & Ek' & ->) & ->). left. congruence. }
  split.
  - intros (x & Hx & Hr). induction E as [|btn y l rs Hy _ IH]; [destruct Hx|]. destruct Hx as [->|Hx].
    + apply (G btn x Hy) in Hr as (v & H). exists btn, v. split; [left; reflexivity|exact H].
    + destruct (IH Hx) as (b & v & Hb & H). exists b, v. split; [right; exact Hb|exact H].
  - intros (btn & v & Hb & H). induction E as [|btn' y l rs Hy _ IH]; [destruct Hb|]. destruct Hb as [->|Hb].
    + exists y. split; [left; reflexivity|]. apply (G btn y Hy). eauto.
    + destruct (IH Hb) as (x & Hx & Hr). exists x. split; [right; exact Hx|exact Hr].
Qed.
Lemma button_vk_known sc v : button_vk sc v -> known (KVk v).
Proof.
  intros (ks & E & ->). destruct (sc_get _ _ E) as (Hk & Hv & _). clear E. revert Hv. generalize (N.land (orvals ks) 0xFF). intros v.
  induction Hk as [|k ks Hk _ IH]; cbn [first_vk]; [discriminate|]. destruct k as [w|w|w]; try exact IH. intros Ew. congruence.
Qed.
Lemma wcharMap_known L keys cm : wcharMap scancodeToVk L keys = Ok cm -> keys_known cm.
Proof.
  intros E. apply Forall_forall. intros r Hr. apply (wcharMap_In L keys cm r E) in Hr as (btn & v & _ & _ & Hv & ->). eapply button_vk_known, Hv.
Qed.
(** Different buttons with text have different virtual keys. *)
Definition separate (L : layout) (keys : list (string * list N)) : Prop :=
  forall b1 b2 v, In b1 (unique_sc keys) -> In b2 (unique_sc keys) -> has_text L (fst b1) -> has_text L (fst b2) ->
    button_vk (snd b1) v -> button_vk (snd b2) v -> b1 = b2.
Lemma unique_sc_nodup keys : NoDup (map snd (unique_sc keys)).
Proof.
  unfold unique_sc, dvals. set (d := dict_of _). assert (W : dict_wf d) by apply dict_of_wf.
  assert (G : map snd (map snd d) = map fst d).
  { assert (H : forall k v, In (k, v) d -> snd v = k).
    { intros k v I. apply dget_In_iff in I; [|exact W]. unfold d in I. rewrite dget_dict_of in I. apply dget_In, in_rev in I.
      apply in_map_iff in I as (a & E & _). congruence. }
    rewrite map_map. apply map_ext_in. intros [k v] I. exact (H k v I). }
  rewrite G. exact W.
Qed.
Lemma wcharMap_nodup L keys cm : wcharMap scancodeToVk L keys = Ok cm -> separate L keys -> NoDup (map rvk cm).
Proof.
  unfold wcharMap, separate. destruct (mapM _ _) as [rs|] eqn:E; cbn [of_opt bind]; [|discriminate]. intros E'. assert (cm = concat rs) as -> by congruence. clear E'.
  apply mapM_Ok_inv in E. pose proof (unique_sc_nodup keys) as Hn. revert E Hn. generalize (unique_sc keys). intros l E.
  assert (G : forall btn x r, wcharRow scancodeToVk L btn = Ok x -> In r x -> has_text L (fst btn) /\ button_vk (snd btn) (rvk r)).
  { intros btn x r. unfold wcharRow. cbv zeta. pose proof (has_text_b L (fst btn)) as Hb.
    destruct (forallb _ (getButtonText L (fst btn))); [intros Ex; assert (x = []) as -> by congruence; intros []|].
    unfold dgetM. destruct (dget scancodeToVk (snd btn)) as [ks|] eqn:Ek; cbn [of_opt bind]; [|discriminate].
    destruct (sc_get _ _ Ek) as (_ & Ev & _). rewrite Ev. cbn [of_opt bind].
    set (row := map toWindows _). intros Ex. assert (x = [(N.land (orvals ks) 0xFF, 0%N, row)]) as -> by congruence.
    intros [<-|[]]. split; [apply Hb; reflexivity|]. exists ks. auto. }
  assert (S1 : forall btn x, wcharRow scancodeToVk L btn = Ok x -> List.length x <= 1).
  { intros btn x. unfold wcharRow. cbv zeta. destruct (forallb _ _); [intros Ex; assert (x = []) as -> by congruence; cbn; lia|].
    destruct (dgetM _ _) as [ks|]; cbn [of_opt bind]; [|discriminate]. destruct (first_vk ks) as [v|]; cbn [of_opt bind]; [|discriminate].
    set (row := map toWindows _). intros Ex. assert (x = [(v, 0%N, row)]) as -> by congruence. cbn. lia. }
  induction E as [|btn x l rs Hx E IH]; intros Hn Hs; cbn [concat map]; [constructor|].
  cbn [map] in Hn. inversion Hn as [|? ? Hni Hn']; subst. rewrite map_app.
  assert (IH' : NoDup (map rvk (concat rs))).
  { apply IH; [exact Hn'|]. intros b1 b2 v H1 H2. apply Hs; right; assumption. }
  pose proof (S1 btn x Hx) as Hl. destruct x as [|r [|r' x]]; [exact IH'| |cbn in Hl; lia]. cbn [map app]. constructor; [|exact IH'].
  intros Hi. apply in_map_iff in Hi as (r2 & Er & Hr2). apply in_concat in Hr2 as (x2 & Hx2 & Hr2).
  assert (B : exists btn2, In btn2 l /\ wcharRow scancodeToVk L btn2 = Ok x2).
  { clear - E Hx2. induction E as [|b y l rs Hy _ IH]; [destruct Hx2|]. destruct Hx2 as [->|Hx2]; [exists b; split; [left; reflexivity|exact Hy]|].
    destruct (IH Hx2) as (b2 & Hb & H). exists b2. split; [right; exact Hb|exact H]. }
  destruct B as (btn2 & Hb2 & Ex2). destruct (G btn [r] r Hx (or_introl eq_refl)) as [T1 V1]. destruct (G btn2 x2 r2 Ex2 Hr2) as [T2 V2].
  apply Hni. rewrite Er in V2. rewrite (Hs btn btn2 (rvk r) (or_introl eq_refl) (or_intror Hb2) T1 T2 V1 V2). apply in_map, Hb2.
Qed.
Lemma render_inv name L keys d : renderWinKbd name L keys = Ok (Some d) ->
  name = "ar-lulua" /\ exists cm, wcharMap scancodeToVk L keys = Ok cm /\ makeDriverSources scancodeToVk cm = Ok d.
Proof.
  unfold renderWinKbd. destruct (eqb_spec name "ar-lulua") as [->|]; [|discriminate].
  destruct (wcharMap scancodeToVk L keys) as [cm|]; cbn [of_opt bind]; [|discriminate].
  destruct (makeDriverSources scancodeToVk cm) as [d'|] eqn:E; cbn [of_opt bind]; [|discriminate].
  intros E'. split; [reflexivity|]. exists cm. split; [reflexivity|]. congruence.
Qed.
(** The scancode of a button leads to its virtual key. *)
Lemma render_vk cm d sc v : makeDriverSources scancodeToVk cm = Ok d -> button_vk sc v -> vk_of d sc v.
Proof.
  intros E (ks & Ek & ->). destruct (sc_get _ _ Ek) as (Hk & _ & Hs). destruct (driver_defs _ _ _ E) as (Hd & Ha & H0 & H1 & _).
  exists (enumOr ks), (orvals ks). split; [rewrite Hd; apply or_value_known, Hk|]. split; [reflexivity|].
  destruct Hs as [(c & -> & Hc)|(e & c & -> & He & Hc)].
  - split; [exact Hc|]. rewrite Ha, ausVK_nth, Ek by exact Hc. reflexivity.
  - destruct He as [->| ->].
    + left. split; [reflexivity|]. rewrite H0. apply vsc_scan; [exact sc_wf|apply sc_nonzero|exact Ek].
    + right. split; [reflexivity|]. rewrite H1. apply vsc_scan; [exact sc_wf|apply sc_nonzero|exact Ek].
Qed.
Lemma wide_expected s : (forall c, s = Some c -> bmp c) -> wide (toWindows s) = expected s.
Proof.
  destruct s as [c|]; [|reflexivity]. intros H. destruct (H c eq_refl) as (n & -> & Hn & Hf).
  cbn [expected]. destruct (N.eqb_spec n 10) as [->|Hx]; [reflexivity|].
  assert (Ew : toWindows (Some (CText [n])) = Some (CText [n])).
  { unfold toWindows. destruct n as [|p]; [reflexivity|]. do 4 (destruct p as [p|p|]; try reflexivity). congruence. }
  rewrite Ew. cbn [wide]. rewrite N.mod_small by exact Hn. destruct (N.eqb_spec n 0xF000); [contradiction|reflexivity].
Qed.
(** Pressing a button of the layout types the text of the selected layer. *)
Theorem C70_types L keys d btn i : renderWinKbd "ar-lulua" L keys = Ok (Some d) -> separate L keys ->
  In btn (unique_sc keys) -> has_text L (fst btn) ->
  (forall j c, nth_error (getButtonText L (fst btn)) j = Some (Some c) -> bmp c) ->
  press_yields d (snd btn) i (expected (nth i (getButtonText L (fst btn)) None)).
Proof.
  intros E Hs Hb Ht Hbmp. destruct (render_inv _ _ _ _ E) as (_ & cm & Ec & Ed).
  assert (V : exists v, button_vk (snd btn) v).
  { unfold wcharMap in Ec. destruct (mapM _ _) as [rs|] eqn:Em; cbn [of_opt bind] in Ec; [|discriminate]. apply mapM_Ok_inv in Em.
    clear - Em Hb Ht. induction Em as [|b x l rs Hx _ IH]; [destruct Hb|]. destruct Hb as [->|Hb]; [|apply IH, Hb].
    unfold wcharRow in Hx. cbv zeta in Hx. rewrite (proj2 (has_text_b L (fst btn)) Ht) in Hx. unfold dgetM in Hx.
    destruct (dget scancodeToVk (snd btn)) as [ks|] eqn:Ek; cbn [of_opt bind] in Hx; [|discriminate]. eexists. exists ks. split; [exact Ek|reflexivity]. }
  destruct V as [v Hv]. exists v. split; [eapply render_vk; eassumption|].
  assert (Hr : In (v, 0%N, map toWindows (getButtonText L (fst btn))) cm) by (apply (wcharMap_In L keys cm _ Ec); exists btn, v; auto).
  pose proof (C69_typed _ _ _ _ i Ed (wcharMap_known _ _ _ Ec) (wcharMap_nodup _ _ _ Ec Hs) Hr) as T. unfold rvk in T. cbn [fst snd] in T.
  rewrite T. f_equal. change (@None cell) with (toWindows None) at 1. rewrite map_nth. apply wide_expected.
  intros c Hc. destruct (Nat.lt_ge_cases i (List.length (getButtonText L (fst btn)))) as [Hl|Hl].
  - apply (Hbmp i). rewrite <- Hc. apply nth_error_nth', Hl.
  - rewrite nth_overflow in Hc by exact Hl. discriminate.
Qed.
(** It fails exactly for other texts and keys without virtual key; for other
    layouts nothing is written. *)
Theorem C70_total L keys : (exists d, renderWinKbd "ar-lulua" L keys = Ok (Some d)) <->
  forall btn, In btn (unique_sc keys) -> has_text L (fst btn) ->
    (exists v, button_vk (snd btn) v) /\ forall i c, nth_error (getButtonText L (fst btn)) i = Some (Some c) -> exists n, c = CText [n].
Proof.
  assert (W : (exists cm, wcharMap scancodeToVk L keys = Ok cm) <-> forall btn, In btn (unique_sc keys) -> has_text L (fst btn) -> exists v, button_vk (snd btn) v).
  { assert (A : forall btn, (exists x, wcharRow scancodeToVk L btn = Ok x) <-> (has_text L (fst btn) -> exists v, button_vk (snd btn) v)).
    { intros btn. unfold wcharRow. cbv zeta. pose proof (has_text_b L (fst btn)) as Hb. destruct (forallb _ (getButtonText L (fst btn))).
      - split; [intros _ Ht; apply Hb in Ht; discriminate|eauto].
      - unfold dgetM. destruct (dget scancodeToVk (snd btn)) as [ks|] eqn:Ek; cbn [of_opt bind].
        + destruct (sc_get _ _ Ek) as (_ & Ev & _). rewrite Ev. cbn [of_opt bind]. split; [|eauto]. intros _ _. eexists. exists ks. eauto.
        + split; [intros [x E]; discriminate|]. intros H. destruct (H (proj1 Hb eq_refl)) as (v & ks & E & _). congruence. }
    unfold wcharMap. destruct (mapM _ _) as [rs|] eqn:Em; cbn [of_opt bind].
    - split; [|eauto]. intros _ btn Hb. apply mapM_Ok_inv in Em. apply A. clear - Em Hb.
      induction Em as [|b x l rs Hx _ IH]; [destruct Hb|]. destruct Hb as [->|Hb]; eauto.
    - split; [intros [cm E]; discriminate|]. intros H. exfalso. apply mapM_Raise_inv in Em as (btn & Hb & Er).
      destruct (proj2 (A btn) (H btn Hb)) as [x Ex]. congruence. }
  split.
  - intros [d E]. destruct (render_inv _ _ _ _ E) as (_ & cm & Ec & Ed). intros btn Hb Ht.
    destruct (proj1 W (ex_intro _ cm Ec) btn Hb Ht) as [v Hv]. split; [eauto|]. intros i c Hi.
    assert (Hr : In (v, 0%N, map toWindows (getButtonText L (fst btn))) cm) by (apply (wcharMap_In L keys cm _ Ec); exists btn, v; auto).
    assert (F : fine (toWindows (Some c))).
    { apply (proj1 (C69_fails _ _) (ex_intro _ d Ed) _ _ Hr). apply in_map. eapply nth_error_In, Hi. }
    destruct F as [F|[n F]]; destruct c as [[|a [|b t]]|]; cbn in F; try discriminate; try (destruct a as [|p]; try discriminate; do 4 (destruct p as [p|p|]; try discriminate)); eauto.
  - intros H. destruct (proj2 W (fun btn Hb Ht => proj1 (H btn Hb Ht))) as [cm Ec].
    assert (D : exists d, makeDriverSources scancodeToVk cm = Ok d).
    { apply C69_fails. intros r s Hr Hs. apply (wcharMap_In L keys cm r Ec) in Hr as (btn & v & Hb & Ht & _ & ->). cbn [snd] in Hs.
      apply in_map_iff in Hs as ([c|] & <- & Hi); [|left; reflexivity]. apply In_nth_error in Hi as [i Hi].
      destruct (proj2 (H btn Hb Ht) i c Hi) as [n ->]. right. exists (if N.eqb n 10 then 13%N else n).
      destruct n as [|p]; [reflexivity|]. do 4 (destruct p as [p|p|]; try reflexivity). }
    destruct D as [d Ed]. exists d. unfold renderWinKbd. change (eqb "ar-lulua" "ar-lulua") with true. cbv iota. rewrite Ec. cbn [of_opt bind]. rewrite Ed. reflexivity.
Qed.
Theorem C70_others name L keys : name <> "ar-lulua" -> renderWinKbd name L keys = Ok None.
Proof. intros H. unfold renderWinKbd. destruct (eqb_spec name "ar-lulua"); [contradiction|reflexivity]. Qed.

(** The shipped layout on the standard keyboard: every text of every layer can be
    typed with every modifier of the layer. *)
Definition vk_of_code (sc : list N) : N := match dget scancodeToVk sc with Some ks => N.land (orvals ks) 0xFF | None => 0%N end.
Definition has_textb (L : layout) (b : string) : bool := negb (forallb (fun x : option cell => match x with None => true | Some _ => false end) (getButtonText L b)).
Lemma has_textb_spec L b : has_textb L b = true <-> has_text L b.
Proof. unfold has_textb. rewrite negb_true_iff. apply has_text_b. Qed.
Lemma separate_b L keys : nodupb (map (fun b => vk_of_code (snd b)) (filter (fun b => has_textb L (fst b)) (unique_sc keys))) = true -> separate L keys.
Proof.
  intros H b1 b2 v I1 I2 T1 T2 (k1 & E1 & V1) (k2 & E2 & V2). apply nodupb_NoDup in H.
  assert (W1 : vk_of_code (snd b1) = v) by (unfold vk_of_code; rewrite E1; auto).
  assert (W2 : vk_of_code (snd b2) = v) by (unfold vk_of_code; rewrite E2; auto).
  apply has_textb_spec in T1. apply has_textb_spec in T2.
  assert (J1 : In b1 (filter (fun b => has_textb L (fst b)) (unique_sc keys))) by (apply filter_In; auto).
  assert (J2 : In b2 (filter (fun b => has_textb L (fst b)) (unique_sc keys))) by (apply filter_In; auto).
  revert H J1 J2. generalize (filter (fun b => has_textb L (fst b)) (unique_sc keys)). intros l. clear - W1 W2. induction l as [|x l IH]; intros H J1 J2; [destruct J1|].
  cbn [map] in H. inversion H as [|? ? Hn Hd]; subst. destruct J1 as [<-|J1], J2 as [<-|J2].
  - reflexivity.
  - exfalso. apply Hn. apply in_map_iff. exists b2. auto.
  - exfalso. apply Hn. apply in_map_iff. exists b1. rewrite W2. auto.
  - apply IH; auto.
Qed.
Definition bmpb (s : option cell) : bool :=
  match s with None => true | Some (CText [n]) => N.ltb n 65536 && negb (N.eqb n 0xF000) | Some _ => false end.
Lemma bmpb_spec c : bmpb (Some c) = true -> bmp c.
Proof.
  destruct c as [[|n [|n' t]]|]; cbn; try discriminate. intros H. apply andb_true_iff in H as [H1 H2]. exists n. split; [reflexivity|].
  split; [lia|]. intros ->. discriminate.
Qed.
Definition lulua : layout := layout_new (glayers (generic_deserialize data_ar_lulua)).
(** The button among those with the same scancode that the renderer takes *)
Definition taken (keys : list (string * list N)) (sc : list N) : string * list N :=
  match find (fun b => eqb (snd b) sc) (unique_sc keys) with Some b => b | None => ("", []) end.
Definition shipped_okb (i : nat) (l : layer) : bool :=
  forallb (fun bt => match dget (kb_codes ibmpc105) (fst bt) with
                     | Some sc => let btn := taken (kb_codes ibmpc105) sc in
                         eqb (snd btn) sc && mem btn (unique_sc (kb_codes ibmpc105)) && has_textb lulua (fst btn) &&
                         forallb bmpb (getButtonText lulua (fst btn)) &&
                         eqb (expected (nth i (getButtonText lulua (fst btn)) None)) (expected (Some (snd bt)))
                     | None => false
                     end) (llayout l) &&
  forallb (fun m => forallb (fun x => match dget (kb_codes ibmpc105) x with Some sc => dhas scancodeToVk sc | None => false end) (elems m) &&
     let s := shift_state (map (fun x => vk_of_code (match dget (kb_codes ibmpc105) x with Some sc => sc | None => [] end)) (elems m)) in
     eqb (if N.leb s 24 then match nth_error charModifiers (N.to_nat s) with Some n => if N.eqb n 0x0F then None else Some n | None => None end else None) (Some (N.of_nat i)))
    (lmods l).
Lemma shipped_ok : forallb (fun il => shipped_okb (fst il) (snd il)) (combine (seq 0 (List.length (glayers (generic_deserialize data_ar_lulua)))) (glayers (generic_deserialize data_ar_lulua))) = true.
Proof. vm_compute. reflexivity. Qed.
Theorem C70_shipped : exists d, renderWinKbd "ar-lulua" lulua (kb_codes ibmpc105) = Ok (Some d) /\
  forall i l, nth_error (glayers (generic_deserialize data_ar_lulua)) i = Some l ->
  (forall b t, dget (llayout l) b = Some t -> exists sc, In (b, sc) (kb_codes ibmpc105) /\ press_yields d sc i (expected (Some t))) /\
  (forall m, In m (lmods l) -> exists vs, Forall2 (fun x v => exists sc, In (x, sc) (kb_codes ibmpc105) /\ vk_of d sc v) (elems m) vs /\
     selects d (shift_state vs) = Some (N.of_nat i)).
Proof.
  destruct (renderWinKbd "ar-lulua" lulua (kb_codes ibmpc105)) as [[d|]|] eqn:E; [|vm_compute in E; discriminate|vm_compute in E; discriminate].
  exists d. split; [reflexivity|]. destruct (render_inv _ _ _ _ E) as (_ & cm & _ & Ed). intros i l Hl.
  assert (Sep : separate lulua (kb_codes ibmpc105)) by (apply separate_b; vm_compute; reflexivity).
  assert (Hok : shipped_okb i l = true).
  { pose proof shipped_ok as H. rewrite forallb_forall in H. apply (H (i, l)). clear - Hl. revert Hl. generalize (glayers (generic_deserialize data_ar_lulua)). intros q.
    assert (G : forall k, nth_error q i = Some l -> In (k + i, l) (combine (seq k (List.length q)) q)).
    { revert i. induction q as [|x q IH]; intros [|i] k Hq; cbn in *; try discriminate.
      - left. rewrite Nat.add_0_r. congruence.
      - right. rewrite <- Nat.add_succ_comm. apply IH, Hq. }
    apply (G 0). }
  unfold shipped_okb in Hok. apply andb_true_iff in Hok as [H1 H2]. rewrite forallb_forall in H1, H2. split.
  - intros b t Hb. specialize (H1 (b, t) (dget_In _ _ _ Hb)). cbn [fst snd] in H1.
    destruct (dget (kb_codes ibmpc105) b) as [sc|] eqn:Es; [|discriminate]. cbv zeta in H1. rewrite !andb_true_iff in H1. destruct H1 as [[[[Q1 Q2] Q3] Q4] Q5].
    apply (proj1 (eqb_eq _ _)) in Q1. apply mem_In in Q2. apply has_textb_spec in Q3. apply (proj1 (eqb_eq _ _)) in Q5.
    exists sc. split; [apply dget_In, Es|]. rewrite <- Q5, <- Q1 at 1.
    apply (C70_types lulua (kb_codes ibmpc105)); [exact E|exact Sep|exact Q2|exact Q3|].
    intros j c Hj. apply bmpb_spec. rewrite forallb_forall in Q4. apply Q4. eapply nth_error_In, Hj.
  - intros m Hm. specialize (H2 m Hm). apply andb_true_iff in H2 as [Q1 Q2]. cbv zeta in Q2.
    eexists. split; [|rewrite (selects_eq _ _ _ _ Ed); apply (proj1 (eqb_eq _ _)) in Q2; exact Q2].
    rewrite forallb_forall in Q1. clear - Q1 Ed. induction (elems m) as [|x q IH]; [constructor|]. cbn [map]. constructor; [|apply IH; intros y Hy; apply Q1; right; exact Hy].
    specialize (Q1 x (or_introl eq_refl)). destruct (dget (kb_codes ibmpc105) x) as [sc|] eqn:Es; [|discriminate].
    exists sc. split; [apply dget_In, Es|]. eapply render_vk; [exact Ed|]. unfold dhas in Q1. unfold vk_of_code.
    destruct (dget scancodeToVk sc) as [ks|] eqn:Ek; [|discriminate]. exists ks. auto.
Qed.
Example C70_example : List.length (glayers (generic_deserialize data_ar_lulua)) = 4 /\
  (List.length (unique_sc (kb_codes ibmpc105)), List.length (kb_codes ibmpc105)) = (62, 63).
Proof. vm_compute. split; reflexivity. Qed.

(** * C71: the generated source is closed *)
(** Every macro the tables use is defined, with one value. *)
Theorem C71_defined m cm d s : makeDriverSources m cm = Ok d -> sc_known m -> dict_wf m -> keys_known cm ->
  In s (used_macros d) -> exists v, macro (d_defs d) s v.
Proof.
  intros E Hs Hm Hk Hu. pose proof (driver_defs _ _ _ E) as (Hd & Ha & H0 & H1 & Ew).
  assert (Hb : d_bits d = vkToBits).
  { unfold makeDriverSources in E. destruct (vkToWchar cm) as [wt|]; cbn [bind] in E; [|discriminate].
    apply (f_equal (fun r => match r with Ok x => x | Raise _ => d end)) in E. subst d. reflexivity. }
  assert (Or : forall ks, Forall known ks -> In s (enumOr ks) -> exists v, macro (d_defs d) s v).
  { intros ks Hks Hi. unfold enumOr in Hi. apply in_map_iff in Hi as (k & <- & Hi). exists (kval k). rewrite Hd. apply macro_known.
    rewrite Forall_forall in Hks. apply Hks, Hi. }
  assert (Vs : forall e, In s (concat (map snd (vscToVk e m))) -> exists v, macro (d_defs d) s v).
  { intros e Hi. apply in_concat in Hi as (names & Hn & Hi). apply in_map_iff in Hn as ([c ns] & E2 & Hn). cbn in E2. subst ns.
    apply vscToVk_In in Hn as (ks & Ek & ->); [|exact Hm]. eapply Or; [eapply Hs, Ek|exact Hi]. }
  unfold used_macros in Hu. rewrite !in_app_iff in Hu. destruct Hu as [Hu|[Hu|[Hu|[Hu|Hu]]]].
  - rewrite Ha in Hu. unfold ausVK in Hu. apply in_concat in Hu as (names & Hn & Hi). apply in_map_iff in Hn as (c & <- & _).
    destruct (dget m [N.of_nat c]) as [ks|] eqn:Ec; (eapply Or; [|exact Hi]); [eapply Hs, Ec|].
    constructor; [|constructor]. apply knownb_known. vm_compute. reflexivity.
  - rewrite H0 in Hu. eapply Vs, Hu.
  - rewrite H1 in Hu. eapply Vs, Hu.
  - rewrite Hb in Hu. unfold vkToBits, macros_of in Hu. apply in_flat_map in Hu as (e & He & Hu). rewrite map_app, map_map in He.
    apply in_app_iff in He as [He|[<-|[]]]; [|destruct Hu]. apply in_map_iff in He as (vb & <- & Hv). cbn [fst] in Hu. destruct Hu as [<-|[]].
    exists (kval (KVk (fst vb))). rewrite Hd. apply macro_known. apply knownb_known.
    assert (F : forallb (fun vb => knownb (KVk (fst vb))) vkToBitsTable = true) by (vm_compute; reflexivity). rewrite forallb_forall in F. apply F, Hv.
  - destruct (vkToWchar_ok _ _ _ Ew) as [Ht _].
    assert (F : Forall (fun r => known (KVk (rvk r))) (concat (map snd (char_groups cm)))).
    { rewrite char_groups_concat. apply Forall_app. split; [|exact numpad_known]. eapply Permutation_Forall; [apply Permutation_sym, sorted_by_perm|exact Hk]. }
    unfold macros_of in Hu. apply in_flat_map in Hu as (e & He & Hu). destruct e as [x|]; [|destruct Hu]. destruct Hu as [->|[]].
    apply in_flat_map in He as (t & Hti & He). apply in_flat_map in He as (w & Hw & He).
    assert (G : exists g body, incl g (concat (map snd (char_groups cm))) /\ snd t = body ++ [zero_row (snd (fst t))] /\ Forall2 row_of g body).
    { clear - Ht Hti. induction Ht as [|g t' gs ts [En (body & Eb & Hb)] _ IH]; [destruct Hti|]. destruct Hti as [->|Hti].
      - exists (snd g), body. split; [cbn [map concat]; apply incl_appl, incl_refl|]. split; [rewrite En; exact Eb|exact Hb].
      - destruct (IH Hti) as (g' & b' & G1 & G2). exists g', b'. split; [cbn [map concat]; apply incl_appr, G1|exact G2]. }
    destruct G as (g & body & Hg & Eb & Hrow). rewrite Eb in Hw. apply in_app_iff in Hw as [Hw|[<-|[]]].
    + assert (R : exists r, In r g /\ row_of r w).
      { clear - Hrow Hw. induction Hrow as [|r w' g body Hr _ IH]; [destruct Hw|]. destruct Hw as [->|Hw]; [exists r; split; [left; reflexivity|exact Hr]|].
        destruct (IH Hw) as (r' & H1 & H2). exists r'. split; [right; exact H1|exact H2]. }
      destruct R as (r & Hr & chars & Ec & ->). cbn [w_vk w_chars] in He. destruct He as [He|He].
      * assert (s = cdefName (KVk (rvk r))) as -> by congruence. exists (kval (KVk (rvk r))). rewrite Hd. apply macro_known. rewrite Forall_forall in F. apply F, Hg, Hr.
      * apply mapM_Ok_inv in Ec. assert (K : s = cdefName (KWc 0xF000)).
        { clear - Ec He. induction Ec as [|a b l chars Hab _ IH]; [destruct He|]. destruct He as [->|He]; [|apply IH, He].
          destruct a as [[[|c [|c' t]]|]|]; cbn [toRepr] in Hab; congruence. }
        exists 0xF000%N. rewrite K, Hd. apply (macro_known (KWc 0xF000)). apply knownb_known. vm_compute. reflexivity.
    + cbn [zero_row w_vk w_chars] in He. destruct He as [He|He]; [discriminate|]. apply repeat_spec in He. discriminate.
Qed.
(** Every table is declared once and listed, its rows have the columns its type
    says, and it ends with a row of zeros. *)
Theorem C71_tables m cm d : makeDriverSources m cm = Ok d ->
  NoDup (map fst (d_wch d)) /\ d_tables d = map (fun t => Some (fst t)) (d_wch d) ++ [None] /\
  forall n rows, In (n, rows) (d_wch d) ->
    Forall (fun w => List.length (w_chars w) = snd n) rows /\
    exists body z, rows = body ++ [z] /\ w_vk z = CNum 0 /\ Forall (fun e => e = CNum 0) (w_chars z) /\
                   Forall (fun w => exists v, w_vk w = CName (cdefName (KVk v))) body.
Proof.
  intros E. destruct (driver_defs _ _ _ E) as (_ & _ & _ & _ & Ew). destruct (vkToWchar_ok _ _ _ Ew) as [Ht Hn].
  split; [rewrite (table_names _ _ Ht); apply char_groups_nodup|]. split; [rewrite Hn, map_map; reflexivity|].
  intros n rows Hi. pose proof (char_groups_cols cm) as Hc.
  assert (G : exists g body, Forall (fun r => ncols r = snd n) g /\ rows = body ++ [zero_row (snd n)] /\ Forall2 row_of g body).
  { clear - Ht Hi Hc. induction Ht as [|g t gs ts [En (body & Eb & Hb)] _ IH]; [destruct Hi|]. inversion Hc as [|? ? C1 C2]; subst. destruct Hi as [->|Hi]; [|auto].
    cbn [fst snd] in *. exists (snd g), body. subst n. auto. }
  destruct G as (g & body & Hg & -> & Hr). split.
  - apply Forall_app. split.
    + clear - Hr Hg. induction Hr as [|r w g body Hr _ IH]; [constructor|]. inversion Hg; subst. constructor; [|auto]. rewrite (row_chars_length _ _ Hr). assumption.
    + constructor; [|constructor]. cbn. apply repeat_length.
  - exists body, (zero_row (snd n)). split; [reflexivity|]. split; [reflexivity|]. split.
    + apply Forall_forall. intros e He. apply repeat_spec in He. exact He.
    + clear - Hr. induction Hr as [|r w g body (chars & _ & ->) _ IH]; [constructor|]. constructor; [|exact IH]. exists (rvk r). reflexivity.
Qed.
(** The types of the tables of the renderer: one column per layer and one for
    the number pad, so all types are declared for layouts of up to eight layers. *)
Theorem C71_types L keys d : renderWinKbd "ar-lulua" L keys = Ok (Some d) -> List.length (layers L) <= 8 ->
  forall n rows, In (n, rows) (d_wch d) -> In (snd n) declared_columns /\ (n = ("Num", 1) \/ n = ("", List.length (layers L))).
Proof.
  intros E H8 n rows Hi. destruct (render_inv _ _ _ _ E) as (_ & cm & Ec & Ed).
  destruct (driver_defs _ _ _ Ed) as (_ & _ & _ & _ & Ew). destruct (vkToWchar_ok _ _ _ Ew) as [Ht _].
  assert (Hn : In n (map fst (char_groups cm))) by (rewrite <- (table_names _ _ Ht); apply (in_map fst) in Hi; exact Hi).
  unfold char_groups in Hn. rewrite map_app, map_map in Hn. cbn [map fst] in Hn. apply in_app_iff in Hn as [Hn|[<-|[]]].
  - apply in_map_iff in Hn as (ng & <- & Hng). pose proof (groupby_spec ncols (sorted_by (fun a b => Nat.leb (ncols a) (ncols b)) cm)) as (Gc & Gf & _).
    rewrite Forall_forall in Gf. destruct (Gf ng Hng) as [Hne Hf]. destruct (snd ng) as [|r g] eqn:Eg; [contradiction|].
    assert (Hr : In r cm).
    { apply (Permutation_in _ (sorted_by_perm (fun a b => Nat.leb (ncols a) (ncols b)) cm)). rewrite <- Gc. apply in_concat. exists (snd ng). split; [apply in_map, Hng|rewrite Eg; left; reflexivity]. }
    inversion Hf as [|? ? Hl _]; subst. apply (wcharMap_In L keys cm r Ec) in Hr as (btn & v & _ & Ht' & _ & ->).
    assert (El : ncols (v, 0%N, map toWindows (getButtonText L (fst btn))) = List.length (layers L)).
    { unfold ncols. cbn [snd]. rewrite map_length. unfold getButtonText. apply map_length. }
    rewrite El in Hl. cbn [snd]. rewrite <- Hl. split; [|right; reflexivity].
    unfold declared_columns. apply in_seq. destruct Ht' as (i & c & Hi'). assert (i < List.length (getButtonText L (fst btn))) by (apply nth_error_Some; congruence).
    unfold getButtonText in H. rewrite map_length in H. lia.
  - split; [|left; reflexivity]. unfold declared_columns. apply in_seq. cbn. lia.
Qed.
Example C71_example :
  match makeDriverSources scancodeToVk rows_example with
  | Ok d => (List.length (used_macros d), List.length (nodup string_dec (used_macros d)), nth 200 (used_macros d) "") = (251, 157, "VIRTUALKEY_INSERT")
  | Raise _ => False
  end.
Proof. vm_compute. reflexivity. Qed.

Print Assumptions C66_same_key_partial.
Print Assumptions C66_same_key_refuted.
Print Assumptions C66_missing_refuted.
Print Assumptions C66_lost_refuted.
Print Assumptions C67_plain.
Print Assumptions C67_prefixed_partial.
Print Assumptions C67_unterminated.
Print Assumptions C67_prefixed_refuted.
Print Assumptions C68_names.
Print Assumptions C68_selects.
Print Assumptions C69_typed.
Print Assumptions C69_numpad.
Print Assumptions C69_silent.
Print Assumptions C69_in_bounds.
Print Assumptions C69_numpad_last.
Print Assumptions C69_fails.
Print Assumptions C69_typed_needs_bmp.
Print Assumptions C70_types.
Print Assumptions C70_total.
Print Assumptions C70_others.
Print Assumptions C70_shipped.
Print Assumptions C71_defined.
Print Assumptions C71_tables.
Print Assumptions C71_types.
