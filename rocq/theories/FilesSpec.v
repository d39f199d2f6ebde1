(** How xmodmap and the compiler of Keyman read files, as far as ours use their
    languages. *)
From Coq Require Import QArith Ascii Permutation.
From Verif Require Import Base KeyboardModel LayoutModel DataKeyboard KlcModel ExportModel ExportSpec.
Close Scope Q_scope.
Open Scope string_scope.
Open Scope list_scope.

(** * Lines and words *)
(** The characters up to a separator; what comes after it *)
Fixpoint cut (p : N -> bool) (t : text) : text * option text :=
  match t with
  | [] => ([], None)
  | c :: t' => if p c then ([], Some t') else let (a, b) := cut p t' in (c :: a, b)
  end.
Fixpoint split (fuel : nat) (p : N -> bool) (t : text) : list text :=
  match fuel with
  | O => []
  | S fuel' => match cut p t with (a, Some r) => a :: split fuel' p r | (a, None) => [a] end
  end.
Definition is_nl (c : N) : bool := (c =? 10)%N.
Definition is_blank (c : N) : bool := (c =? 32)%N || (c =? 9)%N.
Definition lines (t : text) : list text := split (S (List.length t)) is_nl t.
Definition words (t : text) : list text := filter (fun w => match w with [] => false | _ => true end) (split (S (List.length t)) is_blank t).

(** * Numbers *)
Fixpoint number (acc : N) (t : text) : option N :=
  match t with
  | [] => Some acc
  | c :: t' => if ((48 <=? c) && (c <=? 57))%N then number (10 * acc + (c - 48))%N t' else None
  end.
Definition hexdig (c : N) : option N :=
  (if (48 <=? c) && (c <=? 57) then Some (c - 48)
   else if (65 <=? c) && (c <=? 70) then Some (c - 55)
   else if (97 <=? c) && (c <=? 102) then Some (c - 87) else None)%N.
Fixpoint hexnum (acc : N) (t : text) : option N :=
  match t with
  | [] => Some acc
  | c :: t' => match hexdig c with Some d => hexnum (16 * acc + d)%N t' | None => None end
  end.

(** * xmodmap *)
(** keysymdef.h, the names that are used *)
Definition named : list (string * N) :=
  [("NoSymbol", 0); ("BackSpace", 0xff08); ("Tab", 0xff09); ("Return", 0xff0d); ("space", 0x20); ("Shift_L", 0xffe1); ("Shift_Lock", 0xffe6);
   ("ISO_Group_Shift", 0xff7e); ("ISO_First_Group", 0xfe0c); ("ISO_Level3_Shift", 0xfe03); ("ISO_Level3_Lock", 0xfe05)]%N.
(** XStringToKeysym: names, and U with the number of a character.  Control characters have
    no such name. *)
Definition control (c : N) : bool := ((c <? 32) || ((127 <=? c) && (c <=? 159)))%N.
Definition unicode_keysym (c : N) : option N :=
  (if control c then None else if c <? 256 then Some c else if c <? 0x110000 then Some (c + 0x1000000) else None)%N.
Definition keysym_of (t : text) : option N :=
  match find (fun nk => eqb (lit (fst nk)) t) named with
  | Some nk => Some (snd nk)
  | None => match t with
            | 85%N :: ((_ :: _) as h) => match hexnum 0 h with Some c => unicode_keysym c | None => None end
            | _ => None
            end
  end.
(** The character of a keysym *)
Definition char_of (k : N) : option N :=
  (if k =? 0xff08 then Some 8 else if k =? 0xff09 then Some 9 else if k =? 0xff0d then Some 10
   else if (k <? 256) && negb (control k) then Some k
   else if (0x1000100 <=? k) && (k <? 0x1110000) then Some (k - 0x1000000) else None)%N.
Inductive xcmd := Keycode (n : N) (l : list N) | Clear (m : text) | Add (m : text) (l : list N).
Fixpoint all_of {A B} (f : A -> option B) (l : list A) : option (list B) :=
  match l with
  | [] => Some []
  | a :: l' => match f a, all_of f l' with Some b, Some bs => Some (b :: bs) | _, _ => None end
  end.
(** A line: comments start with an exclamation mark *)
Definition xread_line (t : text) : option (list xcmd) :=
  match words t with
  | [] => Some []
  | (33%N :: _) :: _ => Some []
  | w :: r =>
      if eqb w (lit "keycode") then
        match r with
        | n :: e :: l => if eqb e (lit "=") then match number 0 n, all_of keysym_of l with Some n, Some l => Some [Keycode n l] | _, _ => None end else None
        | _ => None
        end
      else if eqb w (lit "clear") then match r with [m] => Some [Clear m] | _ => None end
      else if eqb w (lit "add") then
        match r with
        | m :: e :: l => if eqb e (lit "=") then match all_of keysym_of l with Some l => Some [Add m l] | None => None end else None
        | _ => None
        end
      else None
  end.
(** Nothing is done if there is an error in any line. *)
Definition xread (t : text) : option (list xcmd) := option_map (@concat _) (all_of xread_line (lines t)).
(** The keysyms of a key code: those of the last command *)
Definition keycode_of (code : N) (c : xcmd) : bool := match c with Keycode n _ => (n =? code)%N | _ => false end.
Definition now_has (cs : list xcmd) (code : N) : option (list N) :=
  match find (keycode_of code) (rev cs) with Some (Keycode _ l) => Some l | _ => None end.
(** Shift, Mode_switch and ISO_Level3_Shift select columns 1, 2 and 4. *)
Definition column_of (k : N) : nat := 
  if (k =? 0xffe1)%N then 1 else if (k =? 0xff7e)%N then 2 else if (k =? 0xfe03)%N then 4 else 0.
Definition column_held (cs : list xcmd) (held : option N) : nat :=
  match held with
  | None => 0
  | Some h => match now_has cs h with Some (k :: _) => column_of k | _ => 0 end
  end.
(** The character typed with key [code] while key [held] is down *)
Definition key_types (cs : list xcmd) (held : option N) (code : N) : option N :=
  match now_has cs code with
  | Some l => match nth_error l (column_held cs held) with Some k => char_of k | None => None end
  | None => None
  end.
(** The characters that X11 has a keysym for and that programs understand *)
Definition typable (c : N) : Prop := (c = 8 \/ c = 9 \/ c = 10)%N \/ control c = false /\ (c < 0x110000)%N.

Definition all_typable (ls : list layer) : Prop := forall l b x, In l ls -> In (b, CText [x]) (llayout l) -> typable x.
(** Names of keys are written to comments. *)
Definition kbd_plain (kb : kbd) : Prop := forall b, In b (keys kb) -> ~ In 10%N (lit (kb_name b)).

(** * Keyman *)
Inductive kstmt := Store (n v : text) | Begin | Group | Rule (keys : list text) (out : list N).
Definition is_close (c : N) : bool := (c =? 93)%N.
Definition is_quote (c : N) : bool := (c =? 34)%N.
Definition is_paren (c : N) : bool := (c =? 41)%N.
Fixpoint after (p t : text) : option text :=
  match p, t with
  | [], _ => Some t
  | a :: p', b :: t' => if (a =? b)%N then after p' t' else None
  | _, [] => None
  end.
(** U+ and four to six hexadecimal digits *)
Definition uplus (t : text) : option N :=
  match after (lit "U+") t with
  | Some h => if (4 <=? List.length h)%nat && (List.length h <=? 6)%nat then hexnum 0 h else None
  | None => None
  end.
(** + [keys] > characters; there has to be a character. *)
Definition kread_rule (t : text) : option kstmt :=
  match cut is_close t with
  | (ks, Some r) =>
      match words r with
      | g :: out => if eqb g (lit ">") then match words ks, out, all_of uplus out with
                                             | (_ :: _) as ks, _ :: _, Some cs => Some (Rule ks cs) | _, _, _ => None end
                    else None
      | [] => None
      end
  | _ => None
  end.
(** store(&name) "value" *)
Definition kread_store (t : text) : option kstmt :=
  match cut is_paren t with
  | (n, Some r) =>
      match cut is_quote r with
      | (b, Some r) => match cut is_quote r with
                       | (v, Some []) => if forallb is_blank b then Some (Store n v) else None
                       | _ => None
                       end
      | _ => None
      end
  | _ => None
  end.
(** Comments start with c and a blank; a backslash at the end would continue a line. *)
Definition kread_line (t : text) : option (list kstmt) :=
  if match rev t with 92%N :: _ => true | _ => false end then None
  else match t with
  | [] => Some []
  | 99%N :: 32%N :: _ => Some []
  | _ => option_map (fun s => [s])
      match after (lit "+ [") t with
      | Some r => kread_rule r
      | None => match after (lit "store(&") t with
                | Some r => kread_store r
                | None => if eqb t (lit "begin Unicode > use(main)") then Some Begin
                          else if eqb t (lit "group(main) using keys") then Some Group else None
                end
      end
  end.
Definition kread (t : text) : option (list kstmt) := option_map (@concat _) (all_of kread_line (lines t)).
(** Codes of keys that can be written between brackets *)
Definition code_ok (s : string) : Prop := s <> "" /\ forall c, In c (lit s) -> ~ In c [9; 10; 32; 93]%N.
Definition all_written (ls : list layer) : Prop := forall l b t, In l ls -> In (b, CText t) (llayout l) -> t <> [] /\ Forall (fun c => (c < 0x110000)%N) t.
(** [s] writes the text of the cell when its key is pressed together with the modifier keys. *)
Definition rule_does (kb : kbd) (x : bset * string * cell) (s : kstmt) : Prop :=
  exists t ms mc bc, snd x = CText t /\ Permutation ms (elems (fst (fst x))) /\ Forall2 (has_keyman kb) ms mc /\ has_keyman kb (snd (fst x)) bc /\
    s = Rule (map lit (mc ++ [bc])) t.
