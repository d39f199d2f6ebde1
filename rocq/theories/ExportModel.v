(** Model of the exporters in lulua/render.py:302-468 and 514-585.

    A keyboard is the table of rows of DataKeyboard.v, a layout is the
    specialised layout of LayoutModel.v (buttons are their names, see C01).
    Files are lists of lines, rules or XML elements; headers, comments and
    fixed text without keyboard contents are left out (FilesModel.v has those
    of xmodmap and Keyman).  Cells that are no
    strings ([COther]) are treated like a number other than 0. *)
From Coq Require Import QArith Ascii.
From Verif Require Import Base KeyboardModel LayoutModel DataKeyboard RenderModel.
Close Scope Q_scope.
Open Scope string_scope.
Open Scope list_scope.

Definition kbd := list (list kbutton * list kbutton).
(** keyboard.py:156-159 *)
Definition keys (kb : kbd) : list kbutton := flat_map (fun row => fst row ++ snd row) kb.
(** The button object behind a name. *)
Definition button (kb : kbd) (n : string) : res kbutton :=
  of_opt KeyError (find (fun b => String.eqb (kb_name b) n) (keys kb)).

(** * Numbers *)
(** [f'{n:04X}'] *)
Definition hexchar (d : N) : ascii :=
  ascii_of_N (if (d <? 10)%N then 48 + d else 55 + d)%N.
Fixpoint hexdigits (fuel : nat) (n : N) (acc : list ascii) : list ascii :=
  match fuel with
  | O => acc
  | S fuel' =>
      let acc' := hexchar (n mod 16) :: acc in
      if (n / 16 =? 0)%N then acc' else hexdigits fuel' (n / 16)%N acc'
  end.
Definition hex (n : N) : list ascii := hexdigits (S (N.size_nat n)) n [].
Definition hex4 (n : N) : string :=
  string_of_list_ascii (repeat "0"%char (4 - List.length (hex n)) ++ hex n).

(** * xmodmap, render.py:302-366 *)
(** render.py:340-345 *)
Definition specialMap : list (text * string) :=
  [([9]%N, "Tab"); ([10]%N, "Return"); ([32]%N, "space"); ([8]%N, "BackSpace")].
(** [ord (text)] *)
Definition ord_ (t : text) : res N := match t with [c] => Ok c | _ => Raise TypeError end.
(** render.py:334-346: the default of [specialMap.get] is evaluated first *)
Definition keysym (c : option cell) : res string :=
  match c with
  | None | Some (CText []) => Ok "NoSymbol"
  | Some (CText t) => do n <- ord_ t; Ok match dget specialMap t with Some s => s | None => ("U" ++ hex4 n)%string end
  | Some COther => Raise TypeError
  end.
Definition keycodes := list (string * list string).
(** [keycodeMap[btn].append (s)] of a defaultdict *)
Definition kappend (d : keycodes) (b : string) (s : string) : keycodes :=
  dset d b (match dget d b with Some l => l | None => [] end ++ [s]).
(** render.py:325 *)
Definition xorder : list nat := [0; 1; 2; 4; 3; 99999; 5; 6].
(** render.py:325-347: one turn of the outer loop; [us] is
    [unique (keyboard.keys (), key=xorgGetter)] *)
Definition xcolumn (L : layout) (us : list kbutton) (d : keycodes) (i : nat) : res keycodes :=
  match nth_error (layers L) i with
  | None => Ok (fold_left (fun d b => kappend d (kb_name b) "NoSymbol") us d)
  | Some l =>
      foldM (fun d b => if isModifier L (frozenset [kb_name b]) then Ok d
                        else do s <- keysym (dget (llayout l) (kb_name b)); Ok (kappend d (kb_name b) s)) us d
  end.
(** render.py:349-354 *)
Definition layerMap : list (list string) := [
  [];
  ["Shift_L"; "Shift_Lock"];
  ["ISO_Group_Shift"; "ISO_Group_Shift"; "ISO_First_Group"; "NoSymbol"];
  ["ISO_Level3_Shift"; "ISO_Level3_Shift"; "ISO_Group_Shift"; "ISO_Group_Shift"; "ISO_Level3_Lock"; "NoSymbol"]].
(** render.py:355-361 *)
Definition xmodifier (i : nat) (d : keycodes) (m : bset) : res keycodes :=
  do _ <- assert_ (Nat.leb (List.length (elems m)) 1);
  match elems m with
  | [] => Ok d
  | b :: _ => do v <- of_opt IndexError (nth_error layerMap i); Ok (dset d b v)
  end.
Definition xmodifiers (L : layout) (d : keycodes) : res keycodes :=
  foldM (fun d il => foldM (xmodifier (fst il)) (lmods (snd il)) d) (enumerate (layers L)) d.
(** render.py:363-365: a line [keycode N = symbols] *)
Record xline := mkX { xname : string; xcode : N; xsyms : list string }.
Definition renderXmodmap (kb : kbd) (L : layout) : res (list xline) :=
  do d <- foldM (xcolumn L (unique (keys kb) kb_xorg)) xorder [];
  do d <- xmodifiers L d;
  mapM (fun bv => do b <- button kb (fst bv); Ok (mkX (fst bv) (kb_xorg b) (snd bv))) d.

(** * Keyman, render.py:368-401 *)
(** A rule [+ [keys] > text] *)
Record krule := mkK { kkeys : list string; kout : list string }.
(** What is written and which modifiers are complained about; [ord] is the
    iteration order of frozensets. *)
Record kfile := mkKF { krules : list krule; kwarned : list bset }.
(** render.py:394-395 *)
Definition kunsupported (c : string) : bool := prefix "K_" c || String.eqb c "CAPS".
Definition kcode (kb : kbd) (n : string) : res string := do b <- button kb n; Ok (kb_keyman b).
(** render.py:393-397: the loop looks at the codes up to the first unsupported one *)
Fixpoint kwarn (kb : kbd) (bs : list string) : res bool :=
  match bs with
  | [] => Ok false
  | b :: bs' => do c <- kcode kb b; if kunsupported c then Ok true else kwarn kb bs'
  end.
(** render.py:398-401 *)
Definition krule_of (kb : kbd) (ms : list string) (bt : string * cell) : res krule :=
  do mc <- mapM (kcode kb) ms;
  do bc <- kcode kb (fst bt);
  match snd bt with
  | CText t => Ok (mkK (mc ++ [bc]) (map (fun c => ("U+" ++ hex4 c)%string) t))
  | COther => Raise TypeError
  end.
(** render.py:392-401 *)
Definition kmodifier (kb : kbd) (ord : bset -> list string) (l : layer) (f : kfile) (m : bset) : res kfile :=
  do w <- kwarn kb (ord m);
  do rs <- mapM (krule_of kb (ord m)) (llayout l);
  Ok (mkKF (krules f ++ rs) (if w then kwarned f ++ [m] else kwarned f)).
(** render.py:391-401 *)
Definition renderKeyman (kb : kbd) (ord : bset -> list string) (L : layout) : res kfile :=
  foldM (fun f l => foldM (kmodifier kb ord l) (lmods l) f) (layers L) (mkKF [] []).

(** * Anysoft keyboard, render.py:403-468 *)
(** A Key element: android:codes, android:keyLabel, android:popupCharacters,
    ask:hintLabel; None for an element without attributes. *)
Record akey := mkA { acodes : list N; alabel : text; apopup : text; ahint : text }.
(** A Row element: android:keyWidth in hundredths of a percent, whether it is
    marked as the top or bottom row, its keys. *)
Record arow := mkAR { awidth : option Z; atop : bool; abottom : bool; akeys : list (option akey) }.
(** Correctly rounded to even: [f'{100/n:.2f}'] in hundredths, for n < 4000
    (then no rounding error of the division can matter). *)
Definition percent (n : nat) : Z :=
  let q := (10000 / Z.of_nat n)%Z in
  let r := (10000 mod Z.of_nat n)%Z in
  match (2 * r ?= Z.of_nat n)%Z with
  | Lt => q
  | Gt => (q + 1)%Z
  | Eq => if Z.even q then q else (q + 1)%Z
  end.
Definition isLetter (b : kbutton) : bool := match kb_kind b with Letter => true | _ => false end.
(** render.py:442: NFC of every string, '' for None; normalize raises TypeError
    for anything else *)
Definition buttonText (nfc : text -> text) (L : layout) (b : string) : res (list text) :=
  mapM (fun c => match c with
                 | None => Ok []
                 | Some (CText t) => Ok (nfc t)
                 | Some COther => Raise TypeError
                 end) (getButtonText L b).
(** render.py:446-453 *)
Definition askKey (nfc : text -> text) (L : layout) (b : kbutton) : res (option akey) :=
  do ts <- buttonText nfc L (kb_name b);
  match ts with
  | [] => Raise IndexError
  | t0 :: r => Ok (Some (mkA t0 t0 (List.concat r) (List.concat (firstn 2 r))))
  end.
(** render.py:424 *)
Definition askButtons (L : layout) (row : list kbutton * list kbutton) : list kbutton :=
  filter (fun b => isLetter b && negb (isModifier L (frozenset [kb_name b]))) (fst row ++ snd row).
(** keyboard.py:134-137, 164-165: row of a button, the last one that has it *)
Definition rowOf (kb : kbd) (n : string) : res nat :=
  dgetM (fold_left (fun d ir => fold_left (fun d b => dset d (kb_name b) (fst ir)) (fst (snd ir) ++ snd (snd ir)) d) (enumerate kb) []) n.
(** render.py:422-453: one row of the keyboard; no element for some *)
Definition askRow (nfc : text -> text) (kb : kbd) (L : layout) (row : list kbutton * list kbutton) : res (list arow) :=
  match askButtons L row with
  | [] => Ok []
  | (b :: _) as bs =>
      do i <- rowOf kb (kb_name b);
      if Nat.eqb i (List.length kb - 1) then Ok []
      else do ks <- mapM (askKey nfc L) bs;
           Ok [mkAR (Some (percent (List.length bs))) (Nat.eqb i 0) false ks]
  end.
(** render.py:455-468: the attributes in the loop are not passed on *)
Definition askBottom : arow := mkAR None false true [None; None; None].
Definition renderAsk (nfc : text -> text) (kb : kbd) (L : layout) : res (list arow) :=
  do rs <- mapM (askRow nfc kb L) kb;
  Ok (List.concat rs ++ [askBottom]).

(** * macOS, render.py:514-556 *)
(** keyMapSelect elements (mapIndex, keys) and keyMap elements (index, keys) *)
Record mkeylayout := mkM { mselect : list (nat * string); mmaps : list (nat * list (N * text)) }.
Definition mkey (kb : kbd) (bt : string * cell) : res (N * text) :=
  do b <- button kb (fst bt);
  do c <- of_opt KeyError (kb_macos b);
  match snd bt with CText t => Ok (c, t) | COther => Raise TypeError end.
Definition renderKeylayout (kb : kbd) (L : layout) : res mkeylayout :=
  do ms <- mapM (fun il => do ks <- mapM (mkey kb) (llayout (snd il)); Ok (fst il, ks)) (enumerate (layers L));
  Ok (mkM (enumerate [""; "anyShift caps?"; "caps"; "anyOption"]) ms).

(** * Klavaro, render.py:558-585 *)
(** render.py:573-578: the two strings a button adds *)
Definition klavaroKey (nfc : text -> text) (L : layout) (b : kbutton) : res (text * text) :=
  do ts <- buttonText nfc L (kb_name b);
  do t0 <- of_opt IndexError (nth_error ts 0);
  do t1 <- of_opt IndexError (nth_error ts 1);
  let pad (t : text) : text := match t with [] => [32%N] | _ => t end in
  Ok (pad t0, pad t1).
(** render.py:564-580 *)
Definition klavaroRow (nfc : text -> text) (L : layout) (st : text * text) (row : list kbutton * list kbutton) : res (text * text) :=
  match filter isLetter (fst row ++ snd row) with
  | [] => Ok st
  | bs => do ks <- mapM (klavaroKey nfc L) bs;
          Ok (fst st ++ List.concat (map fst ks) ++ [10%N], snd st ++ List.concat (map snd ks) ++ [10%N])
  end.
(** [s.strip ('\n')] *)
Fixpoint lstrip (t : text) : text := match t with 10%N :: t' => lstrip t' | _ => t end.
Definition strip (t : text) : text := rev (lstrip (rev (lstrip t))).
(** render.py:558-585: the file *)
Definition renderKlavaro (nfc : text -> text) (kb : kbd) (L : layout) : res text :=
  do st <- foldM (klavaroRow nfc L) kb ([], []);
  Ok (strip (fst st) ++ [10%N] ++ strip (snd st) ++ [10%N]).
