(** Model of the KLC import, lulua/layout.py:235-342, 346-350.  Files are lists of lines
    as the text reader yields them.  [int16] stands for Python's [int(c, 16)]
    ([None]: it raises ValueError), [nfd] for [unicodedata.normalize('NFD', _)]. *)
From Verif Require Import Base LayoutModel.
Open Scope string_scope.
Open Scope list_scope.

(** ASCII string literals as text. *)
Definition lit (s : string) : text := map N_of_ascii (list_ascii_of_string s).

(** Python's [str.isspace], used by [str.strip] and by [\s] in regular
    expressions over str (layout.py:314, 321). *)
Definition is_space (c : N) : bool :=
  (N.leb 9 c && N.leb c 13) || (N.leb 28 c && N.leb c 32) || N.eqb c 0x85 || N.eqb c 0xA0
  || N.eqb c 0x1680 || (N.leb 0x2000 c && N.leb c 0x200A) || N.eqb c 0x2028 || N.eqb c 0x2029
  || N.eqb c 0x202F || N.eqb c 0x205F || N.eqb c 0x3000.

(** Does [t] start with [p]?  ([str.startswith]) *)
Fixpoint starts (p t : text) : bool :=
  match p, t with
  | [], _ => true
  | a :: p', b :: t' => N.eqb a b && starts p' t'
  | _, [] => false
  end.
(** [t[:t.index(p)]]; [None] if [index] raises ValueError. *)
Fixpoint upto (p t : text) : option text :=
  if starts p t then Some [] else
  match t with
  | [] => None
  | c :: t' => match upto p t' with Some u => Some (c :: u) | None => None end
  end.
(** layout.py:308-313.  The second statement is only reached if the first one
    did not raise. *)
Definition strip_comment (line : text) : text :=
  match upto (lit "//") line with
  | None => line
  | Some l1 => match upto (lit ";") l1 with None => l1 | Some l2 => l2 end
  end.
Fixpoint lstrip (t : text) : text :=
  match t with [] => [] | c :: t' => if is_space c then lstrip t' else t end.
(** layout.py:314: [str.strip()] *)
Definition strip (t : text) : text := rev (lstrip (rev (lstrip t))).
(** layout.py:321: [re.split(r'\s+', line)] *)
Fixpoint split_ws (t : text) : list text :=
  match t with
  | [] => [[]]
  | c :: t' =>
      if is_space c then
        match t' with
        | d :: _ => if is_space d then split_ws t' else [] :: split_ws t'
        | [] => [[]; []]
        end
      else match split_ws t' with f :: fs => (c :: f) :: fs | [] => [[c]] end
  end.

(** layout.py:247-302: vkToButton *)
Definition vkToButton : list (text * string) := map (fun p => (lit (fst p), snd p)) [
  ("OEM_3", "Bl2"); ("1", "Bl2"); ("2", "Bl3"); ("3", "Bl4"); ("4", "Bl5"); ("5", "Bl6"); ("6", "Bl7");
  ("7", "Br6"); ("8", "Br5"); ("9", "Br4"); ("0", "Br3"); ("OEM_MINUS", "Br2"); ("OEM_PLUS", "Br1");
  ("Q", "Cl1"); ("W", "Cl2"); ("E", "Cl3"); ("R", "Cl4"); ("T", "Cl5");
  ("Y", "Cr7"); ("U", "Cr6"); ("I", "Cr5"); ("O", "Cr4"); ("P", "Cr3"); ("OEM_4", "Cr2"); ("OEM_6", "Cr1"); ("OEM_5", "Cr0");
  ("A", "Dl1"); ("S", "Dl2"); ("D", "Dl3"); ("F", "Dl4"); ("G", "Dl5");
  ("H", "Dr7"); ("J", "Dr6"); ("K", "Dr5"); ("L", "Dr4"); ("OEM_1", "Dr3"); ("OEM_7", "Dr2");
  ("OEM_102", "El1"); ("Z", "El2"); ("X", "El3"); ("C", "El4"); ("V", "El5"); ("B", "El6");
  ("N", "Er5"); ("M", "Er4"); ("OEM_COMMA", "Er3"); ("OEM_PERIOD", "Er2"); ("OEM_2", "Er1");
  ("SPACE", "Fl_space")].

Section Klc.
  Variable int16 : text -> option Z.
  Variable nfd : text -> text.

  (** layout.py:238-245.  [chr] raises ValueError outside of the Unicode range
      (OverflowError, equally uncaught, for numbers beyond a C int). *)
  Definition codeToText (c : text) : res (option text) :=
    if eqb c (lit "%%") then Ok None else
    match int16 c with
    | None => Raise ValueError
    | Some n =>
        if Z.eqb n (-1) then Ok None
        else if Z.leb 0 n && Z.ltb n 0x110000 then Ok (Some (nfd [Z.to_N n]))
        else Raise ValueError
    end.

  Definition klayers := list (list (string * text)).
  (** layout.py:329: [layers[i][button] = c] *)
  Fixpoint put (ls : klayers) (i : nat) (b : string) (c : text) : res klayers :=
    match ls, i with
    | [], _ => Raise IndexError
    | l :: ls', O => Ok (dset l b c :: ls')
    | l :: ls', S j => do r <- put ls' j b c; Ok (l :: r)
    end.
  (** layout.py:327-329 *)
  Definition put_codes (ls : klayers) (b : string) (code : list (option text)) : res klayers :=
    foldM (fun ls ic => match snd ic with Some c => put ls (fst ic) b c | None => Ok ls end)
      (enumerate code) ls.
  (** layout.py:320-332: a line in layout mode *)
  Definition klc_row (ls : klayers) (line : text) : res klayers :=
    match split_ws line with
    | scancode :: virtKey :: cap :: code =>
        do cs <- mapM codeToText code;
        match dget vkToButton virtKey with
        | Some b => put_codes ls b cs
        | None => do _ <- assert_ (eqb virtKey (lit "DECIMAL")); Ok ls
        end
    | _ => Ok ls
    end.
  (** layout.py:307-332: one iteration; the boolean is [mode == 'layout']. *)
  Definition klc_line (st : bool * klayers) (line0 : text) : res (bool * klayers) :=
    let (mode, ls) := st in
    let line := strip (strip_comment line0) in
    if starts (lit "LAYOUT") line then Ok (true, ls)
    else if eqb line (lit "LIGATURE") then Ok (false, ls)
    else if mode then do ls' <- klc_row ls line; Ok (mode, ls')
    else Ok (mode, ls).
  (** layout.py:304-332, 342 *)
  Definition fromKlc (file : list text) : res klayers :=
    do st <- foldM klc_line file (false, repeat [] 6);
    Ok (snd st).
End Klc.

(** layout.py:334-341 *)
Definition layerSwitches : list (list (list string)) := [
  [[]];
  [["El_shift"]; ["Er_shift"]];
  [["Fl_ctrl"]; ["Fr_ctrl"]];
  [["El_shift"; "Fl_ctrl"]; ["Er_shift"; "Fr_ctrl"]];
  [["Er_altgr"]];
  [["El_shift"; "Er_altgr"]]].
(** layout.py:346-350: importKlc, the data written.  The name is None there. *)
Definition klc_data (ls : klayers) : generic_data :=
  mkGD "" (map (fun il => mkLD (nth (fst il) layerSwitches []) (map (fun kv => (fst kv, CText (snd kv))) (snd il)))
    (enumerate ls)).
