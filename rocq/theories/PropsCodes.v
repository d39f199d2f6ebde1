(** C100: codes of keys (data/keyboards/ibmpc105.yaml). *)
From Coq Require Import QArith.
From Verif Require Import Base KeyboardModel LayoutModel LayoutProofs DataKeyboard DataLayouts ShippedProofs DataWinkbd ExportModel.
Close Scope Q_scope.
Open Scope string_scope.
Open Scope list_scope.

(** * Where keys are *)
(** The rows of a keyboard with 105 keys from left to right, as USB HID usages.  The space bar is there twice. *)
Definition positions : list (list N) := [
  [0x35; 0x1E; 0x1F; 0x20; 0x21; 0x22; 0x23; 0x24; 0x25; 0x26; 0x27; 0x2D; 0x2E; 0x2A];
  [0x2B; 0x14; 0x1A; 0x08; 0x15; 0x17; 0x1C; 0x18; 0x0C; 0x12; 0x13; 0x2F; 0x30; 0x28];
  [0x39; 0x04; 0x16; 0x07; 0x09; 0x0A; 0x0B; 0x0D; 0x0E; 0x0F; 0x33; 0x34; 0x32];
  [0xE1; 0x64; 0x1D; 0x1B; 0x06; 0x19; 0x05; 0x11; 0x10; 0x36; 0x37; 0x38; 0xE5];
  [0xE0; 0xE3; 0xE2; 0x2C; 0x2C; 0xE6; 0xE7; 0x65; 0xE4]]%N.
Record codes := mkC { c_hid : N; c_set1 : list N; c_evdev : N; c_mac : N; c_us : string; c_de : string }.
(** For each usage: scancode (set 1), Linux input event code, macOS virtual key, names of the virtual keys of Windows with US and with German layout in Keyman *)
Definition standard : list codes := [
  mkC 0x35 [0x29] 41 50 "K_BKQUOTE" "K_BKSLASH";
  mkC 0x1E [0x02] 2 18 "K_1" "K_1"; mkC 0x1F [0x03] 3 19 "K_2" "K_2"; mkC 0x20 [0x04] 4 20 "K_3" "K_3"; mkC 0x21 [0x05] 5 21 "K_4" "K_4";
  mkC 0x22 [0x06] 6 23 "K_5" "K_5"; mkC 0x23 [0x07] 7 22 "K_6" "K_6"; mkC 0x24 [0x08] 8 26 "K_7" "K_7"; mkC 0x25 [0x09] 9 28 "K_8" "K_8";
  mkC 0x26 [0x0A] 10 25 "K_9" "K_9"; mkC 0x27 [0x0B] 11 29 "K_0" "K_0";
  mkC 0x2D [0x0C] 12 27 "K_HYPHEN" "K_LBRKT"; mkC 0x2E [0x0D] 13 24 "K_EQUAL" "K_RBRKT"; mkC 0x2A [0x0E] 14 51 "K_BKSP" "K_BKSP";
  mkC 0x2B [0x0F] 15 48 "K_TAB" "K_TAB";
  mkC 0x14 [0x10] 16 12 "K_Q" "K_Q"; mkC 0x1A [0x11] 17 13 "K_W" "K_W"; mkC 0x08 [0x12] 18 14 "K_E" "K_E"; mkC 0x15 [0x13] 19 15 "K_R" "K_R";
  mkC 0x17 [0x14] 20 17 "K_T" "K_T"; mkC 0x1C [0x15] 21 16 "K_Y" "K_Z"; mkC 0x18 [0x16] 22 32 "K_U" "K_U"; mkC 0x0C [0x17] 23 34 "K_I" "K_I";
  mkC 0x12 [0x18] 24 31 "K_O" "K_O"; mkC 0x13 [0x19] 25 35 "K_P" "K_P";
  mkC 0x2F [0x1A] 26 33 "K_LBRKT" "K_COLON"; mkC 0x30 [0x1B] 27 30 "K_RBRKT" "K_EQUAL"; mkC 0x28 [0x1C] 28 36 "K_ENTER" "K_ENTER";
  mkC 0x39 [0x3A] 58 57 "CAPS" "CAPS";
  mkC 0x04 [0x1E] 30 0 "K_A" "K_A"; mkC 0x16 [0x1F] 31 1 "K_S" "K_S"; mkC 0x07 [0x20] 32 2 "K_D" "K_D"; mkC 0x09 [0x21] 33 3 "K_F" "K_F";
  mkC 0x0A [0x22] 34 5 "K_G" "K_G"; mkC 0x0B [0x23] 35 4 "K_H" "K_H"; mkC 0x0D [0x24] 36 38 "K_J" "K_J"; mkC 0x0E [0x25] 37 40 "K_K" "K_K";
  mkC 0x0F [0x26] 38 37 "K_L" "K_L"; mkC 0x33 [0x27] 39 41 "K_COLON" "K_BKQUOTE"; mkC 0x34 [0x28] 40 39 "K_QUOTE" "K_QUOTE";
  mkC 0x32 [0x2B] 43 42 "K_BKSLASH" "K_SLASH";
  mkC 0xE1 [0x2A] 42 56 "SHIFT" "SHIFT"; mkC 0x64 [0x56] 86 10 "K_oE2" "K_oE2"; mkC 0x1D [0x2C] 44 6 "K_Z" "K_Y"; mkC 0x1B [0x2D] 45 7 "K_X" "K_X";
  mkC 0x06 [0x2E] 46 8 "K_C" "K_C"; mkC 0x19 [0x2F] 47 9 "K_V" "K_V"; mkC 0x05 [0x30] 48 11 "K_B" "K_B"; mkC 0x11 [0x31] 49 45 "K_N" "K_N";
  mkC 0x10 [0x32] 50 46 "K_M" "K_M"; mkC 0x36 [0x33] 51 43 "K_COMMA" "K_COMMA"; mkC 0x37 [0x34] 52 47 "K_PERIOD" "K_PERIOD";
  mkC 0x38 [0x35] 53 44 "K_SLASH" "K_HYPHEN"; mkC 0xE5 [0x36] 54 60 "SHIFT" "SHIFT";
  mkC 0xE0 [0x1D] 29 59 "LCTRL" "LCTRL"; mkC 0xE3 [0xE0; 0x5B] 125 55 "K_?5B" "K_?5B"; mkC 0xE2 [0x38] 56 58 "LALT" "LALT"; mkC 0x2C [0x39] 57 49 "K_SPACE" "K_SPACE";
  mkC 0xE6 [0xE0; 0x38] 100 61 "RALT" "RALT"; mkC 0xE7 [0xE0; 0x5C] 126 54 "K_?5C" "K_?5C"; mkC 0x65 [0xE0; 0x5D] 127 110 "K_?5D" "K_?5D"; mkC 0xE4 [0xE0; 0x1D] 97 62 "RCTRL" "RCTRL"]%N.
(** The key [b] of the keyboard and the standard's codes for its place *)
Definition placed (kb : kbd) (b : kbutton) (c : codes) : Prop :=
  exists r i row us, nth_error kb r = Some row /\ nth_error (fst row ++ snd row) i = Some b /\
    nth_error positions r = Some us /\ nth_error us i = Some (c_hid c) /\ In c standard.

(** All pairs *)
Definition code_of (u : N) : option codes := find (fun c => N.eqb (c_hid c) u) standard.
Definition pairs : list (kbutton * codes) :=
  flat_map (fun ru => flat_map (fun bu => match code_of (snd bu) with Some c => [(fst bu, c)] | None => [] end) (combine (fst (fst ru) ++ snd (fst ru)) (snd ru))) (combine ibmpc105 positions).
Lemma combine_nth {A B} (l : list A) (l' : list B) n x y : nth_error l n = Some x -> nth_error l' n = Some y -> In (x, y) (combine l l').
Proof.
  revert l' n. induction l as [|a l IH]; intros [|b l'] [|n]; cbn [nth_error combine]; try discriminate; [intros [= <-] [= <-]; left; reflexivity|].
  intros H H'. right. exact (IH l' n H H').
Qed.
Lemma standard_hid : NoDup (map c_hid standard).
Proof. apply nodupb_NoDup. vm_compute. reflexivity. Qed.
Lemma code_of_In c : In c standard -> code_of (c_hid c) = Some c.
Proof.
  intros I. unfold code_of. pose proof standard_hid as N. induction standard as [|a l IH]; [destruct I|]. cbn [map] in N. inversion N as [|? ? N1 N2]; subst. cbn [find].
  destruct I as [->|I]; [now rewrite N.eqb_refl|]. destruct (N.eqb_spec (c_hid a) (c_hid c)) as [E|_]; [exfalso; apply N1; rewrite E; now apply in_map|exact (IH I N2)].
Qed.
Lemma placed_pairs b c : placed ibmpc105 b c -> In (b, c) pairs.
Proof.
  intros (r & i & row & us & Hr & Hi & Hu & Hc & I). unfold pairs. apply in_flat_map. exists (row, us). split; [exact (combine_nth _ _ r _ _ Hr Hu)|].
  apply in_flat_map. exists (b, c_hid c). split; [exact (combine_nth _ _ i _ _ Hi Hc)|]. cbn [fst snd]. rewrite (code_of_In c I). left. reflexivity.
Qed.
Lemma placed_all (P : kbutton -> codes -> bool) b c : forallb (fun bc => P (fst bc) (snd bc)) pairs = true -> placed ibmpc105 b c -> P b c = true.
Proof. intros H I. apply placed_pairs in I. rewrite forallb_forall in H. exact (H _ I). Qed.

(** * C100 *)
(** There is a place for every key, with a code for it. *)
Theorem C100_placed b : In b (keys ibmpc105) -> exists c, placed ibmpc105 b c.
Proof.
  assert (H : forallb (fun ru => Nat.eqb (List.length (fst (fst ru) ++ snd (fst ru))) (List.length (snd ru)) && forallb (fun u => match code_of u with Some _ => true | None => false end) (snd ru)) (combine ibmpc105 positions) = true) by (vm_compute; reflexivity).
  intros I. unfold keys in I. apply in_flat_map in I as (row & Ir & Ib). apply In_nth_error in Ir as [r Hr]. apply In_nth_error in Ib as [i Hi].
  destruct (nth_error positions r) as [us|] eqn:Hu.
  - rewrite forallb_forall in H. specialize (H _ (combine_nth _ _ r _ _ Hr Hu)). cbn [fst snd] in H. apply andb_prop in H as [H1 H2]. apply Nat.eqb_eq in H1.
    destruct (nth_error us i) as [u|] eqn:Hi'.
    + rewrite forallb_forall in H2. specialize (H2 u (nth_error_In _ _ Hi')). destruct (code_of u) as [c|] eqn:C; [|discriminate H2]. unfold code_of in C. apply find_some in C as [C1 C2]. apply N.eqb_eq in C2. subst u.
      exists c, r, i, row, us. auto 6.
    + exfalso. apply nth_error_None in Hi'. assert (L : i < List.length (fst row ++ snd row)) by (apply nth_error_Some; congruence). lia.
  - exfalso. apply nth_error_None in Hu. assert (L : r < List.length ibmpc105) by (apply nth_error_Some; congruence). cbn in L, Hu. lia.
Qed.
(** Windows and the driver see all keys where they are. *)
Theorem C100_windows b c : placed ibmpc105 b c -> kb_windows b = c_set1 c.
Proof. intros I. apply (proj1 (eqb_eq _ _)). apply (placed_all (fun b c => eqb (kb_windows b) (c_set1 c)) b c); [vm_compute; reflexivity|exact I]. Qed.
(** So does X11 (which adds 8) but for the right logo key. *)
Theorem C100_xorg b c : placed ibmpc105 b c -> kb_name b <> "Fr_win" -> kb_xorg b = (c_evdev c + 8)%N.
Proof.
  intros I N. assert (H : ((kb_xorg b =? c_evdev c + 8)%N || String.eqb (kb_name b) "Fr_win") = true).
  { apply (placed_all (fun b c => (kb_xorg b =? c_evdev c + 8)%N || String.eqb (kb_name b) "Fr_win") b c); [vm_compute; reflexivity|exact I]. }
  apply orb_prop in H as [H|H]; [now apply N.eqb_eq|]. apply String.eqb_eq in H. contradiction.
Qed.
(** The right logo key has the code of the right control key. *)
Theorem C100_xorg_refuted : exists b c b' c', placed ibmpc105 b c /\ placed ibmpc105 b' c' /\ c_hid c <> c_hid c' /\ kb_name b = "Fr_win" /\ kb_name b' = "Fr_ctrl" /\
  kb_xorg b <> (c_evdev c + 8)%N /\ kb_xorg b = kb_xorg b' /\ kb_xorg b' = (c_evdev c' + 8)%N.
Proof.
  exists (mkKB Standard "Fr_win" (5#4)%Q false None "K_?5C" (Some 55%N) [224%N; 92%N] 105), (mkC 0xE7 [0xE0; 0x5C] 126 54 "K_?5C" "K_?5C")%N,
    (mkKB Standard "Fr_ctrl" (5#4)%Q false None "RCTRL" None [224%N; 29%N] 105), (mkC 0xE4 [0xE0; 0x1D] 97 62 "RCTRL" "RCTRL")%N.
  split; [|split; [|repeat split; discriminate]].
  - exists 4, 6. eexists. eexists. split; [reflexivity|]. split; [reflexivity|]. split; [reflexivity|]. split; [reflexivity|]. unfold standard. cbn [In]. tauto.
  - exists 4, 8. eexists. eexists. split; [reflexivity|]. split; [reflexivity|]. split; [reflexivity|]. split; [reflexivity|]. unfold standard. cbn [In]. tauto.
Qed.
(** macOS: four keys have no code, two a wrong one. *)
Theorem C100_macos b c : placed ibmpc105 b c ->
  match kb_macos b with
  | None => In (kb_name b) ["Dr1"; "El1"; "Fr_menu"; "Fr_ctrl"]
  | Some m => kb_name b <> "El_shift" -> kb_name b <> "Fr_win" -> m = c_mac c
  end.
Proof.
  intros I. pose (P := fun b c => match kb_macos b with None => mem (kb_name b) ["Dr1"; "El1"; "Fr_menu"; "Fr_ctrl"] | Some m => (m =? c_mac c)%N || mem (kb_name b) ["El_shift"; "Fr_win"] end).
  assert (H : P b c = true) by (apply placed_all; [vm_compute; reflexivity|exact I]). unfold P in H. destruct (kb_macos b) as [m|]; [|apply mem_In, H].
  intros A B. apply orb_prop in H as [H|H]; [now apply N.eqb_eq|]. apply mem_In in H as [E|[E|[]]]; congruence.
Qed.
(** The left shift key has the code of caps lock. *)
Theorem C100_macos_refuted : exists b c b' c' m, placed ibmpc105 b c /\ placed ibmpc105 b' c' /\ c_hid c <> c_hid c' /\ kb_name b = "El_shift" /\ kb_name b' = "Dl_caps" /\
  kb_macos b = Some m /\ m <> c_mac c /\ kb_macos b' = Some m /\ m = c_mac c'.
Proof.
  exists (mkKB Standard "El_shift" (3#2)%Q false None "SHIFT" (Some 57%N) [42%N] 50), (mkC 0xE1 [0x2A] 42 56 "SHIFT" "SHIFT")%N,
    (mkKB Standard "Dl_caps" (2#1)%Q false None "CAPS" (Some 57%N) [58%N] 66), (mkC 0x39 [0x3A] 58 57 "CAPS" "CAPS")%N, 57%N.
  split; [|split; [|repeat split; discriminate]].
  - exists 3, 0. eexists. eexists. split; [reflexivity|]. split; [reflexivity|]. split; [reflexivity|]. split; [reflexivity|]. unfold standard. cbn [In]. tauto.
  - exists 2, 0. eexists. eexists. split; [reflexivity|]. split; [reflexivity|]. split; [reflexivity|]. split; [reflexivity|]. unfold standard. cbn [In]. tauto.
Qed.
(** The wrong codes do no harm to shipped layouts: no text is on a key with a wrong code, and no modifier has a wrong X11 code. *)
Theorem C100_shipped d l b c : In d all_layouts -> In l (shipped_layers d) -> placed ibmpc105 b c ->
  (In (kb_name b) (dkeys (llayout l)) -> kb_xorg b = (c_evdev c + 8)%N /\ forall m, kb_macos b = Some m -> m = c_mac c) /\
  (forall s, In s (lmods l) -> In (kb_name b) (elems s) -> kb_xorg b = (c_evdev c + 8)%N).
Proof.
  intros Hd Hl Hp.
  assert (H : forallb (fun d => forallb (fun l => negb (mem "Fr_win" (dkeys (llayout l))) && negb (mem "El_shift" (dkeys (llayout l))) && forallb (fun s => negb (mem "Fr_win" (elems s))) (lmods l)) (shipped_layers d)) all_layouts = true) by (vm_compute; reflexivity).
  rewrite forallb_forall in H. specialize (H d Hd). rewrite forallb_forall in H. specialize (H l Hl). apply andb_prop in H as [H H3]. apply andb_prop in H as [H1 H2].
  assert (M : forall x l, negb (@mem string _ x l) = true -> ~ In x l) by (intros x q E I; apply mem_In in I; rewrite I in E; discriminate E).
  split.
  - intros I. assert (N1 : kb_name b <> "Fr_win") by (intros E; rewrite E in I; exact (M _ _ H1 I)). assert (N2 : kb_name b <> "El_shift") by (intros E; rewrite E in I; exact (M _ _ H2 I)).
    split; [exact (C100_xorg b c Hp N1)|]. intros m E. pose proof (C100_macos b c Hp) as Q. rewrite E in Q. exact (Q N2 N1).
  - intros s Is I. rewrite forallb_forall in H3. specialize (H3 s Is). apply (C100_xorg b c Hp). intros E. rewrite E in I. exact (M _ _ H3 I).
Qed.
(** Keyman gets the virtual keys of the German layout, *)
Theorem C100_keyman b c : placed ibmpc105 b c -> kb_keyman b = c_de c.
Proof. intros I. apply String.eqb_eq. apply (placed_all (fun b c => String.eqb (kb_keyman b) (c_de c)) b c); [vm_compute; reflexivity|exact I]. Qed.
(** the driver for Windows those of the US layout: keys of letters and digits are K_ and the letter or digit. *)
Definition short_name (n : string) : option string :=
  match n with
  | String c EmptyString => Some (String c EmptyString)
  | String "N" (String "U" (String "M" (String "B" (String "E" (String "R" s))))) => Some s
  | _ => None
  end.
Theorem C100_driver b c n s : placed ibmpc105 b c -> dget qwertyScancodeToVk (kb_windows b) = Some [VK n] -> short_name n = Some s -> c_us c = ("K_" ++ s)%string.
Proof.
  intros I E S. pose (P := fun b c => match dget qwertyScancodeToVk (kb_windows b) with Some [VK n] => match short_name n with Some s => String.eqb (c_us c) ("K_" ++ s) | None => true end | _ => true end).
  assert (H : P b c = true) by (apply placed_all; [vm_compute; reflexivity|exact I]). unfold P in H. rewrite E, S in H. now apply String.eqb_eq.
Qed.
(** So both exporters disagree on ten keys, for example Y and Z. *)
Theorem C100_keyman_partial b c : placed ibmpc105 b c -> ~ In (kb_name b) ["Bl1"; "Br2"; "Br1"; "Cr7"; "Cr2"; "Cr1"; "Dr3"; "Dr1"; "El2"; "Er1"] -> kb_keyman b = c_us c.
Proof.
  intros I N. pose (P := fun b c => String.eqb (kb_keyman b) (c_us c) || mem (kb_name b) ["Bl1"; "Br2"; "Br1"; "Cr7"; "Cr2"; "Cr1"; "Dr3"; "Dr1"; "El2"; "Er1"]).
  assert (H : P b c = true) by (apply placed_all; [vm_compute; reflexivity|exact I]). unfold P in H. apply orb_prop in H as [H|H]; [now apply String.eqb_eq|]. apply mem_In in H. contradiction.
Qed.
Theorem C100_keyman_refuted : exists b n s, In b (keys ibmpc105) /\ dget qwertyScancodeToVk (kb_windows b) = Some [VK n] /\ short_name n = Some s /\ kb_keyman b <> ("K_" ++ s)%string.
Proof.
  exists (mkKB Letter "Cr7" (1#1)%Q false None "K_Z" (Some 16%N) [21%N] 29), "Y", "Y". split; [unfold ibmpc105, keys; cbn [flat_map app fst snd In]; tauto|].
  split; [vm_compute; reflexivity|]. split; [reflexivity|discriminate].
Qed.
Example C100_example : forall b, In b (keys ibmpc105) -> kb_name b = "Dl1" -> kb_windows b = [0x1E]%N /\ kb_xorg b = 38%N /\ kb_macos b = Some 0%N.
Proof.
  intros b I E. unfold ibmpc105, keys in I. cbn [flat_map app fst snd In] in I.
  repeat (destruct I as [<-|I]; [first [discriminate E|repeat split]|]). destruct I.
Qed.
Print Assumptions C100_placed.
Print Assumptions C100_windows.
Print Assumptions C100_xorg.
Print Assumptions C100_xorg_refuted.
Print Assumptions C100_macos.
Print Assumptions C100_macos_refuted.
Print Assumptions C100_shipped.
Print Assumptions C100_keyman.
Print Assumptions C100_driver.
Print Assumptions C100_keyman_partial.
Print Assumptions C100_keyman_refuted.
