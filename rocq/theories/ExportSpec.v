(** Vocabulary for the properties of the exporters: what the programs reading
    the exported files make of them. *)
From Coq Require Import QArith Ascii Permutation.
From Verif Require Import Base KeyboardModel LayoutModel DataKeyboard ExportModel.
Close Scope Q_scope.
Open Scope string_scope.
Open Scope list_scope.

(** * Hexadecimal numbers *)
Definition hexval (a : ascii) : option N :=
  let n := N_of_ascii a in
  (if (48 <=? n) && (n <=? 57) then Some (n - 48)
   else if (65 <=? n) && (n <=? 70) then Some (n - 55)
   else None)%N.
Fixpoint hex_read (acc : N) (s : string) : option N :=
  match s with
  | EmptyString => Some acc
  | String a s' => match hexval a with Some d => hex_read (16 * acc + d)%N s' | None => None end
  end.

(** * X11: what xmodmap does with the lines *)
(** The character a keysym stands for. *)
Definition keysym_char (s : string) : option N :=
  match dget [("Tab", 9%N); ("Return", 10%N); ("space", 32%N); ("BackSpace", 8%N)] s with
  | Some c => Some c
  | None => match s with
            | String "U" s' => if Nat.leb 4 (String.length s') then hex_read 0 s' else None
            | _ => None
            end
  end.
(** Later lines replace earlier ones. *)
Definition effective (ls : list xline) (code : N) : option (list string) :=
  option_map xsyms (find (fun l => N.eqb (xcode l) code) (rev ls)).
(** Shift, group switch and third level select columns 1, 2 and 4. *)
Definition column (sym : string) : nat :=
  match dget [("Shift_L", 1); ("ISO_Group_Shift", 2); ("ISO_Level3_Shift", 4)] sym with Some n => n | None => 0 end.
Definition selected (ls : list xline) (held : option N) : nat :=
  match held with
  | None => 0
  | Some h => match effective ls h with Some (s :: _) => column s | _ => 0 end
  end.
(** Character typed by the key [code] while the key [held] is down. *)
Definition x_types (ls : list xline) (held : option N) (code : N) : option N :=
  match effective ls code with
  | Some syms => match nth_error syms (selected ls held) with Some s => keysym_char s | None => None end
  | None => None
  end.

(** What the keysyms of a modifier key do, in the order of the columns: what the key does alone,
    with Shift, with the group switch, ... *)
Inductive xaction := XShift | XShiftLock | XGroup | XFirstGroup | XLevel3 | XLevel3Lock | XNothing.
Definition xaction_of (s : string) : option xaction :=
  dget [("Shift_L", XShift); ("Shift_Lock", XShiftLock); ("ISO_Group_Shift", XGroup); ("ISO_First_Group", XFirstGroup);
        ("ISO_Level3_Shift", XLevel3); ("ISO_Level3_Lock", XLevel3Lock); ("NoSymbol", XNothing)] s.
(** A modifier key of layer [i] shifts to it, locks it where X11 can, and leaves the other levels alone. *)
Definition modifier_actions (i : nat) : list xaction :=
  match i with
  | 1 => [XShift; XShiftLock]
  | 2 => [XGroup; XGroup; XFirstGroup; XNothing]
  | 3 => [XLevel3; XLevel3; XGroup; XGroup; XLevel3Lock; XNothing]
  | _ => []
  end.

(** The text of a cell if it is a single character. *)
Definition one_char (c : option cell) : option N := match c with Some (CText [x]) => Some x | _ => None end.
(** Nothing or a single character *)
Definition simple_cell (c : option cell) : Prop := c = None \/ c = Some (CText []) \/ exists x, c = Some (CText [x]).
(** [b] is pressed alone as a modifier. *)
Definition is_modifier (ls : list layer) (b : string) : Prop := exists l, In l ls /\ In (frozenset [b]) (lmods l).
(** [b] is the last key with its X11 code. *)
Definition taken_x (kb : kbd) (b : kbutton) : Prop :=
  exists k1 k2, keys kb = k1 ++ b :: k2 /\ forall u, In u k2 -> kb_xorg u <> kb_xorg b.
(** Key names are distinct. *)
Definition kbd_ok (kb : kbd) : Prop := NoDup (map kb_name (keys kb)).
(** All modifier keys are on the keyboard. *)
Definition mods_on (kb : kbd) (ls : list layer) : Prop :=
  forall l m b, In l ls -> In m (lmods l) -> In b (elems m) -> In b (map kb_name (keys kb)).
(** All keys with text are on the keyboard. *)
Definition cells_on (kb : kbd) (ls : list layer) : Prop :=
  forall l b c, In l ls -> In (b, c) (llayout l) -> In b (map kb_name (keys kb)).

(** * Keyman *)
Definition codepoint (s : string) : option N :=
  match s with
  | String "U" (String "+" s') => if Nat.leb 4 (String.length s') then hex_read 0 s' else None
  | _ => None
  end.
(** [r] writes [t]. *)
Definition rule_text (r : krule) (t : text) : Prop := map codepoint (kout r) = map Some t.
Definition has_keyman (kb : kbd) (b c : string) : Prop := exists k, In k (keys kb) /\ kb_name k = b /\ kb_keyman k = c.
(** Every key with text, once for each modifier of its layer. *)
Definition typed (ls : list layer) : list (bset * string * cell) :=
  flat_map (fun l => flat_map (fun m => map (fun bc => (m, fst bc, snd bc)) (llayout l)) (lmods l)) ls.
(** [r] writes the text of the cell when its key is pressed together with the modifier keys. *)
Definition rule_for (kb : kbd) (x : bset * string * cell) (r : krule) : Prop :=
  exists t ms mc bc, snd x = CText t /\ Permutation ms (elems (fst (fst x))) /\ Forall2 (has_keyman kb) ms mc /\
    has_keyman kb (snd (fst x)) bc /\ kkeys r = mc ++ [bc] /\ rule_text r t.
(** Keyman cannot use one of the keys as a modifier. *)
Definition unsupported (kb : kbd) (m : bset) : Prop :=
  exists b c, In b (elems m) /\ has_keyman kb b c /\ (c = "CAPS" \/ exists s, c = ("K_" ++ s)%string).
(** All texts that can be typed are strings. *)
Definition all_text (ls : list layer) : Prop := forall l b c, In l ls -> lmods l <> [] -> In (b, c) (llayout l) -> c <> COther.

(** [b] has a text or none in every layer, nothing else. *)
Definition text_key (ls : list layer) (b : string) : Prop := forall l, In l ls -> dget (llayout l) b <> Some COther.

(** * Anysoft keyboard *)
(** NFC of a cell's text, nothing without a text *)
Definition shown (nfc : text -> text) (c : option cell) : option text :=
  match c with None => Some [] | Some (CText t) => Some (nfc t) | Some COther => None end.
(** Texts of a button in all layers *)
Definition all_shown (nfc : text -> text) (ls : list layer) (b : string) (ts : list text) : Prop :=
  map (fun l => shown nfc (dget (llayout l) b)) ls = map Some ts.
(** [b] is a letter key and no modifier. *)
Definition ask_key (ls : list layer) (b : kbutton) : Prop := kb_kind b = Letter /\ ~ is_modifier ls (kb_name b).
(** [k] shows the first layer's text and offers the others. *)
Definition key_for (nfc : text -> text) (ls : list layer) (b : kbutton) (k : option akey) : Prop :=
  exists t0 ts, all_shown nfc ls (kb_name b) (t0 :: ts) /\
    k = Some (mkA t0 t0 (List.concat ts) (List.concat (firstn 2 ts))).
(** The letter keys of a row, in order *)
Definition ask_row (nfc : text -> text) (ls : list layer) (row : list kbutton * list kbutton) (i : nat) (r : arow) : Prop :=
  exists bs, bs <> [] /\ (forall b, In b bs <-> In b (fst row ++ snd row) /\ ask_key ls b) /\
    (exists sel, bs = filter sel (fst row ++ snd row)) /\
    Forall2 (key_for nfc ls) bs (akeys r) /\ atop r = Nat.eqb i 0 /\ abottom r = false /\
    exists w, awidth r = Some w /\ (2 * Z.abs (Z.of_nat (List.length bs) * w - 10000) <= Z.of_nat (List.length bs))%Z.

(** * macOS *)
(** The keyMap selected by the modifier string. *)
Definition m_types (m : mkeylayout) (mods : string) (code : N) : list text :=
  flat_map (fun s => if String.eqb (snd s) mods
                     then flat_map (fun ik => if Nat.eqb (fst ik) (fst s)
                                              then map snd (filter (fun ct => N.eqb (fst ct) code) (snd ik)) else []) (mmaps m)
                     else []) (mselect m).
(** Characters allowed in XML 1.0 documents *)
Definition xml_char (c : N) : bool :=
  ((c =? 9) || (c =? 10) || (c =? 13) || ((32 <=? c) && (c <=? 0xD7FF)) || ((0xE000 <=? c) && (c <=? 0xFFFD))
   || ((0x10000 <=? c) && (c <=? 0x10FFFF)))%N.

(** Text of a key in layer [i], a space if there is none *)
Definition klavaro_text (nfc : text -> text) (ls : list layer) (i : nat) (b : kbutton) (t : text) : Prop :=
  exists l s, nth_error ls i = Some l /\ shown nfc (dget (llayout l) (kb_name b)) = Some s /\ t = match s with [] => [32%N] | _ => s end.
(** [line] has the texts of the keys in layer [i]. *)
Definition klavaro_line (nfc : text -> text) (ls : list layer) (i : nat) (bs : list kbutton) (line : text) : Prop :=
  exists ts, Forall2 (klavaro_text nfc ls i) bs ts /\ line = List.concat ts.
(** * Klavaro *)
Fixpoint lines_of (t : text) : list text :=
  match t with
  | [] => [[]]
  | c :: t' => if (c =? 10)%N then [] :: lines_of t'
               else match lines_of t' with w :: ws => (c :: w) :: ws | [] => [[c]] end
  end.
Definition letters (row : list kbutton * list kbutton) : list kbutton :=
  filter (fun b => match kb_kind b with Letter => true | _ => false end) (fst row ++ snd row).
Definition letter_rows (kb : kbd) : list (list kbutton) := filter (fun bs => match bs with [] => false | _ => true end) (map letters kb).
