(** Model of the text of the C source, lulua/winkbd.py:417-823 and
    render.py:480-512.  WinkbdModel.v has the tables this text declares; the
    order of rows and tables, and which characters raise an exception, are
    taken from there.  [printable] stands for [str.isprintable] outside of
    ASCII, [ord] for the iteration order of the sets of keys in comments. *)
From Verif Require Import Base LayoutModel DataWinkbd DataCsrc WinkbdModel KlcModel.
Open Scope string_scope.
Open Scope list_scope.

(** * Numbers *)
Definition digit (up : bool) (d : N) : N := (if d <? 10 then 48 + d else if up then 55 + d else 87 + d)%N.
Fixpoint digits (fuel : nat) (b : N) (up : bool) (n : N) (acc : text) : text :=
  match fuel with
  | O => acc
  | S fuel' =>
      let acc' := digit up (n mod b) :: acc in
      if (n / b =? 0)%N then acc' else digits fuel' b up (n / b) acc'
  end.
(** [f'{n}'], [f'{n:x}'], [f'{n:X}'] *)
Definition num (b : N) (up : bool) (n : N) : text := digits (S (N.size_nat n)) b up n [].
(** Leading zeros up to a width, [f'{n:02x}'] *)
Definition padded (w : nat) (t : text) : text := repeat 48%N (w - List.length t) ++ t.
Definition dec (n : N) : text := num 10 false n.
Definition hexl (w : nat) (n : N) : text := padded w (num 16 false n).
Definition hexu (w : nat) (n : N) : text := padded w (num 16 true n).

(** [sep.join (l)] *)
Fixpoint join (sep : text) (l : list text) : text :=
  match l with [] => [] | [x] => x | x :: l' => x ++ sep ++ join sep l' end.
Definition nl : text := [10%N].
Definition tab : text := [9%N].
Definition quote : text := [34%N].

(** * repr of a string of one character *)
Definition escaped (printable : N -> bool) (c : N) : text :=
  if (c =? 92)%N then lit "\\"
  else if (c =? 9)%N then lit "\t"
  else if (c =? 10)%N then lit "\n"
  else if (c =? 13)%N then lit "\r"
  else if (c <? 32)%N || (c =? 127)%N then lit "\x" ++ hexl 2 c
  else if (c <? 127)%N then [c]
  else if printable c then [c]
  else if (c <? 256)%N then lit "\x" ++ hexl 2 c
  else if (c <? 65536)%N then lit "\u" ++ hexl 4 c
  else lit "\U" ++ hexl 8 c.
Definition repr1 (printable : N -> bool) (c : N) : text :=
  if (c =? 39)%N then quote ++ [c] ++ quote else [39%N] ++ escaped printable c ++ [39%N].

Section Source.
Variable printable : N -> bool.
Variable ord : list N -> list N.

(** winkbd.py:417-426: enumToCDefine *)
Definition defineText (nv : string * N) : text :=
  lit "#define " ++ lit (fst nv) ++ lit " (0x" ++ hexu 0 (snd nv) ++ lit "u)".
Definition defines (cls : string) (l : list (string * N)) : text :=
  join nl ((lit "/* " ++ lit cls ++ lit " */") :: map defineText l ++ [[]]).
(** winkbd.py:428-432: enumOr *)
Definition orText (names : list string) : text := join (lit " | ") (map lit names).

(** winkbd.py:438-446 *)
Definition ausText (rows : list (list string)) : list text :=
  [lit "/* mappings from scancode to virtual key */"; lit "/* non-prefixed scancodes */"; lit "static unsigned short ausVK[] = {"]
  ++ map (fun ir => tab ++ lit " /* " ++ hexu 2 (N.of_nat (fst ir)) ++ lit " */ " ++ orText (snd ir) ++ lit ",") (combine (seq 0 (List.length rows)) rows)
  ++ [tab ++ lit "};" ++ nl].
(** winkbd.py:449-454 *)
Definition vscText (escape : N) (rows : list (N * list string)) : list text :=
  [lit "/* scancodes prefixed by " ++ hexu 0 escape ++ lit " */"; lit "static VSC_VK a" ++ hexu 0 escape ++ lit "VscToVk[] = {"]
  ++ map (fun r => tab ++ lit "{ 0x" ++ hexl 0 (fst r) ++ lit ", " ++ orText (snd r) ++ lit " },") rows
  ++ [tab ++ lit "};" ++ nl].
(** winkbd.py:434-456: scancodeToVkTables *)
Definition scancodeToVkTables (m : scmap) : text :=
  join nl (ausText (ausVK m) ++ vscText 0xe0 (vscToVk 0xe0 m) ++ vscText 0xe1 (vscToVk 0xe1 m)).

(** winkbd.py:544-546, 551-553 *)
Definition nameText (r : N * option string) : text :=
  match snd r with
  | Some v => tab ++ lit "{0x" ++ hexl 2 (fst r) ++ lit ", L" ++ quote ++ lit v ++ quote ++ lit "},"
  | None => tab ++ lit "{0x00, NULL},"
  end.
(** winkbd.py:535-555: scancodeToName *)
Definition scancodeToName (m : list (list N * string)) : text :=
  join nl ([lit "/* Virtual scancode to key name */"; lit "static VSC_LPWSTR aKeyNames[] = {"]
    ++ map nameText (keyNames m) ++ [lit "};"; []]
    ++ [lit "/* Virtual scan code (E0 prefixed) to key name */"; lit "static VSC_LPWSTR aKeyNamesExt[] = {"]
    ++ map nameText (keyNamesExt m) ++ [lit "};"; []]).

(** winkbd.py:565-572: vkToBits; the last entry has no comma *)
Definition vkToBitsText : text :=
  join nl ([lit "/* maps virtual keys (first value) to shift bitfield value (second value) */"; lit "static VK_TO_BIT aVkToBits[] = {"]
    ++ map (fun vb => tab ++ lit "{" ++ lit (cdefName (KVk (fst vb))) ++ lit ", 0x" ++ hexl 0 (snd vb) ++ lit "},") vkToBitsTable
    ++ [tab ++ lit "{0, 0x0}"; tab ++ lit "};" ++ nl]).

(** winkbd.py:597-604: one array element with its comment *)
Definition modText (i : N) : text :=
  let keys := map fst (filter (fun vb => negb (N.eqb (N.land i (snd vb)) 0)) vkToBitsTable) in
  let comment := if (modNumber i =? disabled)%N then lit "disabled" else orText (enumOr (map KVk (ord keys))) in
  tab ++ tab ++ lit "0x" ++ hexl 0 (modNumber i) ++ lit ", /* " ++ comment ++ lit " */".
(** winkbd.py:574-605: charModifiers *)
Definition charModifiersText : text :=
  join nl ([lit "/* maps a shift bitfield value (array index) to a layer number in"; lit "virtual key translation (VK_TO_WCHARS, array value) */";
            lit "static MODIFIERS CharModifiers = {"; tab ++ lit "&aVkToBits[0],"; tab ++ lit "24,"; tab ++ lit "{"]
    ++ map (fun i => modText (N.of_nat i)) (seq 0 25)
    ++ [tab ++ lit "}};" ++ nl]).

(** winkbd.py:619-627: toRepr *)
Definition toReprText (s : option cell) : res text :=
  match s with
  | None => Ok (lit (cdefName (KWc 0xF000)))
  | Some (CText [c]) => Ok (lit "0x" ++ hexu 4 c ++ lit "u /*" ++ repr1 printable c ++ lit "*/")
  | Some (CText _) => Raise PlainException
  | Some COther => Raise TypeError
  end.
(** winkbd.py:618, 628-629 *)
Definition rowText (r : charrow) : res text :=
  let '(v, fl, cs) := r in
  do chars <- mapM toReprText cs;
  Ok (tab ++ lit "{" ++ lit (cdefName (KVk v)) ++ lit ", " ++ dec fl ++ lit ", {" ++ join (lit ", ") chars ++ lit "}},").
(** winkbd.py:615 *)
Definition defname (t : tblname) : text := lit "aVkToWch" ++ lit (fst t) ++ dec (N.of_nat (snd t)).
(** winkbd.py:614-630: generate, the table *)
Definition tableText (t : tblname) (g : list charrow) : res (list text) :=
  let n := dec (N.of_nat (snd t)) in
  do rows <- mapM rowText g;
  Ok ([lit "/* map virtual key to flags and " ++ n ++ lit " unicode output characters */";
       lit "static VK_TO_WCHARS" ++ n ++ lit " " ++ defname t ++ lit "[] = {"]
      ++ rows
      ++ [tab ++ lit "{0, 0, {" ++ concat (repeat (lit "0, ") (snd t)) ++ lit "}},"; tab ++ lit "};"; []]).
(** winkbd.py:632: the line of the table of tables *)
Definition entryText (t : tblname) : text :=
  tab ++ lit "{(PVK_TO_WCHARS1) " ++ defname t ++ lit ", " ++ dec (N.of_nat (snd t)) ++ lit ", sizeof(" ++ defname t ++ lit "[0])},".
(** winkbd.py:607-656: vkToWchar *)
Definition vkToWcharText (m : list charrow) : res text :=
  let groups := map (fun ng => (("", fst ng), snd ng)) (groupby ncols (sorted_by (fun a b => Nat.leb (ncols a) (ncols b)) m)) ++ [(("Num", 1), numpad)] in
  do ts <- mapM (fun tg => tableText (fst tg) (snd tg)) groups;
  Ok (join nl (concat ts
    ++ [lit "/* table of virtual key to wchar mapping tables */"; lit "static VK_TO_WCHAR_TABLE aVkToWcharTable[] = {"]
    ++ map (fun tg => entryText (fst tg)) groups
    ++ [tab ++ lit "{NULL, 0, 0},"; tab ++ lit "};"])).

(** winkbd.py:658-763: typedefs *)
Definition fill (parts : list string) (n : nat) : text := join (dec (N.of_nat n)) (map lit parts).
Definition typedefs : text :=
  lit typedefs1 ++ concat (map (fill wcharsType) declared_columns) ++ fill ligatureType 1 ++ lit typedefs2.

(** winkbd.py:801-823: makeDriverSources *)
Definition sourceText (sc : scmap) (cm : list charrow) : res text :=
  do wch <- vkToWcharText cm;
  Ok (join nl [typedefs; defines "VirtualKey" (enumToCDefine KVk vkval); defines "VirtualKeyFlag" (enumToCDefine KFl vkflags);
               defines "WChar" (enumToCDefine KWc wchars); scancodeToVkTables sc; scancodeToName qwertyScancodeToName;
               vkToBitsText; charModifiersText; wch; lit entrypoint]).
(** render.py:470-512: the file written, if any *)
Definition winKbdFile (name : string) (L : layout) (keys : list (string * list N)) : res (option text) :=
  if eqb name "ar-lulua" then
    do cm <- wcharMap scancodeToVk L keys;
    do t <- sourceText scancodeToVk cm;
    Ok (Some (lit "/* This header was auto-generated by lulua. Do not modify directly. */" ++ nl ++ nl ++ t))
  else Ok None.
End Source.
