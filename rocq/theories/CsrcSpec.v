(** How a C compiler reads the source of the driver: a reader for the part of C
    used there, from characters to the tables of the driver, starting at the
    function Windows calls.  Independent of how the text is made. *)
From Coq Require Import Ascii.
From Verif Require Import Base LayoutModel WinkbdModel.
Open Scope string_scope.
Open Scope list_scope.

(** * Characters to tokens *)
Inductive tok :=
  | TId (s : string) | TNum (n : N) | TStr (wide : bool) (s : string)
  | TP (c : ascii)          (* punctuation *)
  | TCall                   (* an opening parenthesis right after a name *)
  | TNl                     (* end of line outside of comments *)
  | TBad.                   (* anything not understood *)
Definition is_lower (c : N) : bool := (97 <=? c)%N && (c <=? 122)%N.
Definition is_upper (c : N) : bool := (65 <=? c)%N && (c <=? 90)%N.
Definition is_dec (c : N) : bool := (48 <=? c)%N && (c <=? 57)%N.
Definition name_start (c : N) : bool := is_lower c || is_upper c || (c =? 95)%N.
Definition name_char (c : N) : bool := name_start c || is_dec c.
(** Names and strings of ASCII *)
Definition ascii_text (t : text) : string := string_of_list_ascii (map ascii_of_N t).

(** Integer constants: decimal without leading zero, or hexadecimal, with
    suffix u or without.  (Octal numbers are not understood.) *)
Definition dec_digit (c : N) : option N := if is_dec c then Some (c - 48)%N else None.
Definition hex_digit (c : N) : option N :=
  if is_dec c then Some (c - 48)%N
  else if (65 <=? c)%N && (c <=? 70)%N then Some (c - 55)%N
  else if (97 <=? c)%N && (c <=? 102)%N then Some (c - 87)%N else None.
(** u, U, l, L, ul, UL *)
Definition suffixes : list text := [[117]; [85]; [108]; [76]; [117; 108]; [85; 76]]%N.
Fixpoint read_digits (b : N) (dig : N -> option N) (acc : N) (t : text) : option N :=
  match t with
  | [] => Some acc
  | c :: t' => match dig c with
               | Some d => read_digits b dig (acc * b + d)%N t'
               | None => if mem t suffixes then Some acc else None
               end
  end.
Definition read_number (t : text) : option N :=
  match t with
  | [] => None
  | c :: t' =>
      if (c =? 48)%N then
        match t' with
        | [] => Some 0%N
        | x :: d :: t'' =>
            if (x =? 120)%N || (x =? 88)%N
            then match hex_digit d with Some _ => read_digits 16 hex_digit 0 (d :: t'') | None => None end
            else None
        | _ => None
        end
      else read_digits 10 dec_digit 0 t
  end.

(** Where the reader is: outside, inside of a name, number, after a slash, in a
    comment up to the end of line, in a comment, there after a star, slash or
    backslash, in a string, there after a backslash.  Names and numbers are
    collected in reverse. *)
Inductive lstate :=
  | S0 | SId (acc : text) | SNum (acc : text) | SSlash | SLine | SCom | SStar | SComSlash | SBack
  | SStr (wide : bool) (acc : text) | SEsc (wide : bool) (acc : text).
Definition punct (c : N) : bool := mem c [123; 125; 91; 93; 40; 41; 61; 44; 59; 124; 38; 42; 35; 60; 62; 46; 58]%N.
Definition start (c : N) : list tok * lstate :=
  if name_start c then ([], SId [c])
  else if is_dec c then ([], SNum [c])
  else if (c =? 47)%N then ([], SSlash)
  else if (c =? 34)%N then ([], SStr false [])
  else if (c =? 32)%N || (c =? 9)%N then ([], S0)
  else if (c =? 10)%N then ([TNl], S0)
  else if punct c then ([TP (ascii_of_N c)], S0)
  else ([TBad], S0).
Definition also (t : tok) (r : list tok * lstate) : list tok * lstate := (t :: fst r, snd r).
Definition name_tok (acc : text) : tok := TId (ascii_text (rev acc)).
Definition num_tok (acc : text) : tok := match read_number (rev acc) with Some n => TNum n | None => TBad end.
(** Inside of a comment.  The compiler is called with -Wall -Werror
    (data/winkbd/build.ninja:4), so a comment that contains the start of another one
    is refused, as is a backslash at the end of a line. *)
Definition comment (c : N) : list tok * lstate :=
  if (c =? 42)%N then ([], SStar) else if (c =? 47)%N then ([], SComSlash) else if (c =? 92)%N then ([], SBack) else ([], SCom).
Definition lstep (s : lstate) (c : N) : list tok * lstate :=
  match s with
  | S0 => start c
  | SId acc =>
      if name_char c then ([], SId (c :: acc))
      else if (c =? 34)%N && eqb acc [76%N] then ([], SStr true [])
      else if (c =? 40)%N then ([name_tok acc; TCall], S0)
      else also (name_tok acc) (start c)
  | SNum acc => if name_char c || (c =? 46)%N then ([], SNum (c :: acc)) else also (num_tok acc) (start c)
  | SSlash => if (c =? 42)%N then ([], SCom) else if (c =? 47)%N then ([], SLine) else also (TP "/") (start c)
  | SLine => if (c =? 10)%N then ([TNl], S0) else if (c =? 92)%N then ([TBad], SLine) else ([], SLine)
  | SCom => comment c
  | SStar => if (c =? 47)%N then ([], S0) else comment c
  | SComSlash => if (c =? 42)%N then ([TBad], SStar) else comment c
  | SBack => if (c =? 10)%N then ([TBad], SCom) else comment c
  | SStr w acc =>
      if (c =? 34)%N then ([TStr w (ascii_text (rev acc))], S0)
      else if (c =? 92)%N then ([], SEsc w acc)
      else if (c =? 10)%N || (127 <? c)%N then ([TBad], S0)
      else ([], SStr w (c :: acc))
  | SEsc w acc => if (c =? 34)%N || (c =? 92)%N then ([], SStr w (c :: acc)) else ([TBad], S0)
  end.
Fixpoint lex (s : lstate) (t : text) : list tok * lstate :=
  match t with
  | [] => ([], s)
  | c :: t' => let (ts, s') := lstep s c in let (ts', s'') := lex s' t' in (ts ++ ts', s'')
  end.

(** * Preprocessor lines *)
Inductive pstate := PBegin | PMid | PDir (acc : list tok).
Definition pstep (s : pstate) (t : tok) : list (tok + list tok) * pstate :=
  match s, t with
  | PDir acc, TNl => ([inr (rev acc)], PBegin)
  | PDir acc, _ => ([], PDir (t :: acc))
  | _, TNl => ([], PBegin)
  | PBegin, TP "#" => ([], PDir [])
  | _, _ => ([inl t], PMid)
  end.
Fixpoint cpp (s : pstate) (ts : list tok) : list (tok + list tok) * pstate :=
  match ts with
  | [] => ([], s)
  | t :: ts' => let (o, s') := pstep s t in let (o', s'') := cpp s' ts' in (o ++ o', s'')
  end.
(** The macros defined before the first table ([static]), with their values.
    Only macros that are a number in parentheses are used.  A name that
    is followed by a parenthesis without blank would be a macro with arguments. *)
Definition macro_of (l : list tok) : list (string * N) :=
  match l with
  | [TId "define"; TId n; TP "("; TNum v; TP ")"] => [(n, v)]
  | _ => []
  end.
Fixpoint macros_before (o : list (tok + list tok)) : list (string * N) :=
  match o with
  | inl (TId "static") :: _ => []
  | inl _ :: o' => macros_before o'
  | inr l :: o' => macro_of l ++ macros_before o'
  | [] => []
  end.
Definition tokens_of (o : list (tok + list tok)) : list tok :=
  flat_map (fun x => match x with inl t => [t] | inr _ => [] end) o.
(** Directives are either includes or macros as above. *)
Definition directive_ok (x : tok + list tok) : bool :=
  match x with
  | inl TBad => false
  | inl _ => true
  | inr (TId "include" :: l) => true
  | inr l => match macro_of l with [] => false | _ => true end
  end.

(** * Braces *)
Inductive tree := T (t : tok) | B (l : list tree).
Definition bstate := (list tree * list (list tree))%type.
(** Contents of the current braces in reverse, and of those around them. *)
Definition bstep (s : option bstate) (t : tok) : option bstate :=
  match s with
  | None => None
  | Some (cur, stk) =>
      match t with
      | TP "{" => Some ([], cur :: stk)
      | TP "}" => match stk with up :: stk' => Some (B (rev cur) :: up, stk') | [] => None end
      | _ => Some (T t :: cur, stk)
      end
  end.
Definition braces (ts : list tok) : option (list tree) :=
  match fold_left bstep ts (Some ([], [])) with Some (cur, []) => Some (rev cur) | _ => None end.

(** * Declarations and initializers *)
(** Pieces between separators *)
Definition is_tok (c : ascii) (t : tree) : bool := match t with T (TP d) => Ascii.eqb c d | _ => false end.
Fixpoint pieces (c : ascii) (l : list tree) : list (list tree) :=
  match l with
  | [] => [[]]
  | t :: l' => if is_tok c t then [] :: pieces c l'
               else match pieces c l' with p :: ps => (t :: p) :: ps | [] => [[t]] end
  end.
(** A comma after the last element is allowed, other empty elements are not. *)
Fixpoint drop_last_empty (l : list (list tree)) : list (list tree) :=
  match l with [] => [] | [[]] => [] | x :: l' => x :: drop_last_empty l' end.
Definition opt_if (b : bool) : option unit := if b then Some tt else None.
Definition obind {A X} (m : option A) (f : A -> option X) : option X := match m with Some a => f a | None => None end.
Notation "'let?' x ':=' m 'in' f" := (obind m (fun x => f)) (at level 200, x pattern, right associativity).
Definition elements (l : list tree) : option (list (list tree)) :=
  let es := drop_last_empty (pieces "," l) in
  let? _ := opt_if (forallb (fun e => match e with [] => false | _ => true end) es) in Some es.
Fixpoint all_some {A X} (f : A -> option X) (l : list A) : option (list X) :=
  match l with [] => Some [] | a :: l' => let? x := f a in let? xs := all_some f l' in Some (x :: xs) end.

(** What a name stands for: a table (its type, is it an array, contents), a
    structure (its members) or a pointer to one *)
Inductive def := DTable (ty : string) (arr : bool) (i : list tree) | DStruct (ms : list (list tree)) | DPtr (ty : string).
(** [static TYPE NAME[] = { ... }], [static TYPE NAME = { ... }] and
    [typedef struct TAG { ... } NAME, *POINTER] *)
Definition declaration (l : list tree) : list (string * def) :=
  match l with
  | [T (TId "static"); T (TId ty); T (TId n); T (TP "["); T (TP "]"); T (TP "="); B i] => [(n, DTable ty true i)]
  | [T (TId "static"); T (TId "unsigned"); T (TId "short"); T (TId n); T (TP "["); T (TP "]"); T (TP "="); B i] => [(n, DTable "unsigned short" true i)]
  | [T (TId "static"); T (TId ty); T (TId n); T (TP "="); B i] => [(n, DTable ty false i)]
  | [T (TId "typedef"); T (TId "struct"); B ms; T (TId n); T (TP ","); T (TP "*"); T (TId p)]
  | [T (TId "typedef"); T (TId "struct"); T (TId _); B ms; T (TId n); T (TP ","); T (TP "*"); T (TId p)] => [(n, DStruct (pieces ";" ms)); (p, DPtr n)]
  | _ => []
  end.
Definition defs := list (string * def).
Definition declarations (l : list (list tree)) : defs := flat_map declaration l.
(** What is declared before [n] *)
Fixpoint before (ds : defs) (n : string) : defs :=
  match ds with [] => [] | d :: ds' => if String.eqb (fst d) n then [] else d :: before ds' n end.

(** Members of structures *)
Inductive member := U8 | U16 | U32 | Ptr | Bytes | Wide (n : N).
Definition member_of (ds : defs) (l : list tree) : option (string * member) :=
  match l with
  | [T (TId "unsigned"); T (TId "char"); T (TId n)] => Some (n, U8)
  | [T (TId "unsigned"); T (TId "short"); T (TId n)] => Some (n, U16)
  | [T (TId "wchar_t"); T (TId n)] => Some (n, U16)
  | [T (TId "unsigned"); T (TId "long"); T (TId n)] => Some (n, U32)
  | [T (TId "unsigned"); T (TId "char"); T (TId n); T (TP "["); T (TP "]")] => Some (n, Bytes)
  | [T (TId "wchar_t"); T (TId n); T (TP "["); T (TNum k); T (TP "]")] => Some (n, Wide k)
  | [T (TId "unsigned"); T (TId "short"); T (TP "*"); T (TId n)] => Some (n, Ptr)
  | [T (TId "wchar_t"); T (TP "*"); T (TId n)] => Some (n, Ptr)
  | [T (TId "wchar_t"); T (TP "*"); T (TP "*"); T (TId n)] => Some (n, Ptr)
  | [T (TId p); T (TId n)] => match dget ds p with Some (DPtr _) => Some (n, Ptr) | _ => None end
  | _ => None
  end.
(** Digits at the end of a name *)
Fixpoint split_digits (l : text) : text * text :=
  match l with
  | [] => ([], [])
  | c :: l' => let (a, b) := split_digits l' in
               match a with [] => if is_dec c then ([], c :: b) else ([c], b) | _ => (c :: a, b) end
  end.
Definition text_of (s : string) : text := map N_of_ascii (list_ascii_of_string s).
(** The structures of kbd.h Windows expects *)
Definition kbd_h : list (string * list (string * member)) := [
  ("VK_TO_BIT", [("Vk", U8); ("ModBits", U8)]);
  ("MODIFIERS", [("pVkToBit", Ptr); ("wMaxModBits", U16); ("ModNumber", Bytes)]);
  ("VSC_VK", [("Vsc", U8); ("Vk", U16)]);
  ("VSC_LPWSTR", [("vsc", U8); ("pwsz", Ptr)]);
  ("VK_TO_WCHAR_TABLE", [("pVkToWchars", Ptr); ("nModifications", U8); ("cbSize", U8)]);
  ("KBDTABLES", [("pCharModifiers", Ptr); ("pVkToWcharTable", Ptr); ("pDeadKey", Ptr); ("pKeyNames", Ptr); ("pKeyNamesExt", Ptr);
                 ("pKeyNamesDead", Ptr); ("pusVSCtoVK", Ptr); ("bMaxVSCtoVK", U8); ("pVSCtoVK_E0", Ptr); ("pVSCtoVK_E1", Ptr);
                 ("fLocaleFlags", U32); ("nLgMax", U8); ("cbLgEntry", U8); ("pLigature", Ptr); ("dwType", U32); ("dwSubType", U32)])].
Definition wchars_h (n : N) : list (string * member) := [("VirtualKey", U8); ("Attributes", U8); ("wch", Wide n)].
(** The number of columns of a type VK_TO_WCHARSn *)
Definition columns_type (s : string) : option N :=
  let (p, d) := split_digits (text_of s) in
  if String.eqb (ascii_text p) "VK_TO_WCHARS" then read_number d else None.
Definition expected_members (ty : string) : option (list (string * member)) :=
  match dget kbd_h ty with
  | Some ms => Some ms
  | None => match columns_type ty with Some n => Some (wchars_h n) | None => None end
  end.
Definition member_eqb (a b : member) : bool :=
  match a, b with
  | U8, U8 | U16, U16 | U32, U32 | Ptr, Ptr | Bytes, Bytes => true
  | Wide n, Wide m => N.eqb n m
  | _, _ => false
  end.
Fixpoint members_eqb (a b : list (string * member)) : bool :=
  match a, b with
  | [], [] => true
  | (s, x) :: a', (t, y) :: b' => String.eqb s t && member_eqb x y && members_eqb a' b'
  | _, _ => false
  end.
(** [ty] is declared, as Windows expects it. *)
Definition type_ok (ds : defs) (ty : string) : bool :=
  String.eqb ty "unsigned short" ||
  match dget ds ty, expected_members ty with
  | Some (DStruct ms), Some e =>
      match all_some (member_of (before ds ty)) (drop_last_empty ms) with Some l => members_eqb l e | None => false end
  | _, _ => false
  end.
(** The contents of the table [n], which must be an array ([arr]) or structure
    and of the given type. *)
Definition table (ds : defs) (arr : bool) (ty n : string) : option (list (list tree)) :=
  match dget ds n with
  | Some (DTable ty' arr' i) =>
      let? _ := opt_if (Bool.eqb arr arr' && String.eqb ty ty' && type_ok (before ds n) ty) in elements i
  | _ => None
  end.
Definition array (ds : defs) (ty n : string) : option (list (list tree)) := table ds true ty n.
Definition struct (ds : defs) (ty n : string) : option (list (list tree)) := table ds false ty n.

(** Expressions *)
Definition number (e : list tree) : option N := match e with [T (TNum n)] => Some n | _ => None end.
Definition single (e : list tree) : option cexpr :=
  match e with [T (TNum n)] => Some (CNum n) | [T (TId s)] => Some (CName s) | _ => None end.
Fixpoint names_or (e : list tree) : option (list string) :=
  match e with
  | [T (TId s)] => Some [s]
  | T (TId s) :: T (TP "|") :: e' => let? l := names_or e' in Some (s :: l)
  | _ => None
  end.
Definition fields (e : list tree) : option (list (list tree)) := match e with [B l] => elements l | _ => None end.
Definition name_of (e : list tree) : option string := match e with [T (TId s)] => Some s | _ => None end.
Definition address (e : list tree) : option string := match e with [T (TP "&"); T (TId s)] => Some s | _ => None end.

(** * The tables *)
Definition read_vsc (e : list tree) : option (N * list string) :=
  let? f := fields e in match f with [a; b] => let? n := number a in let? l := names_or b in Some (n, l) | _ => None end.
Definition read_keyname (e : list tree) : option (N * option string) :=
  let? f := fields e in
  match f with
  | [a; [T (TStr true s)]] => let? n := number a in Some (n, Some s)
  | [a; [T (TId "NULL")]] => let? n := number a in Some (n, None)
  | _ => None
  end.
Definition read_bit (e : list tree) : option (cexpr * N) :=
  let? f := fields e in match f with [a; b] => let? x := single a in let? n := number b in Some (x, n) | _ => None end.
Definition read_wrow (e : list tree) : option wrow :=
  let? f := fields e in
  match f with
  | [a; b; c] => let? x := single a in let? n := number b in let? cs := fields c in let? l := all_some single cs in Some (mkW x n l)
  | _ => None
  end.
(** Tables of characters are called aVkToWch, prefix, number of columns. *)
Definition table_name (s : string) : option tblname :=
  let (p, d) := split_digits (text_of s) in
  if String.eqb (ascii_text (firstn 8 p)) "aVkToWch"
  then let? n := read_number d in Some (ascii_text (skipn 8 p), N.to_nat n) else None.
(** An entry of the table of tables: the pointer, the number of columns, which is
    the one of the type of the table, and the size of its rows; the result has the
    rows, too *)
Definition read_entry (ds : defs) (e : list tree) : option (option (tblname * list wrow)) :=
  let? f := fields e in
  match f with
  | [[T (TId "NULL")]; [T (TNum 0)]; [T (TNum 0)]] => Some None
  | [[T (TP "("); T (TId "PVK_TO_WCHARS1"); T (TP ")"); T (TId s)]; [T (TNum n)];
     [T (TId "sizeof"); T TCall; T (TId s'); T (TP "["); T (TNum 0); T (TP "]"); T (TP ")")]] =>
      let? _ := opt_if (String.eqb s s') in
      let? t := table_name s in
      let? ty := match dget ds s with Some (DTable ty _ _) => Some ty | _ => None end in
      let? k := columns_type ty in
      let? _ := opt_if (N.eqb k n && Nat.eqb (snd t) (N.to_nat n)) in
      let? es := array ds ty s in
      let? rows := all_some read_wrow es in
      let? _ := opt_if (forallb (fun r => Nat.eqb (List.length (w_chars r)) (snd t)) rows) in
      Some (Some (t, rows))
  | _ => None
  end.
(** The function Windows calls: the name of the structure it returns *)
Fixpoint entry_of (l : list (list tree)) : option string :=
  match l with
  | [] => None
  | [T (TId "PKBDTABLES"); T (TId "KbdLayerDescriptor"); T TCall; T (TP ")");
     B [T (TId "return"); T (TP "&"); T (TId s); T (TP ";")]] :: _ => Some s
  | _ :: l' => entry_of l'
  end.
(** [field: value] *)
Definition designated (e : list tree) : option (string * list tree) :=
  match e with T (TId f) :: T (TP ":") :: v => Some (f, v) | _ => None end.
Definition is_name (s : string) (e : list tree) : bool := match e with [T (TId s')] => String.eqb s s' | _ => false end.
(** The number of elements of array [n] *)
Definition is_count (n : string) (e : list tree) : bool :=
  match e with
  | [T (TId "sizeof"); T TCall; T (TId a); T (TP ")"); T (TP "/"); T (TId "sizeof"); T TCall; T (TP "*"); T (TId b); T (TP ")")] =>
      String.eqb a n && String.eqb b n
  | _ => false
  end.
Definition read_tables (defs : list (string * N)) (top : list (list tree)) : option driver :=
  let ds := declarations top in
  let? _ := opt_if (nodupb (map fst ds)) in
  let? root := entry_of top in
  let? fs := struct ds "KBDTABLES" root in
  let ds := before ds root in
  let? fs := all_some designated fs in
  let? _ := opt_if (nodupb (map fst fs)) in
  (* modifiers *)
  let? cmf := dget fs "pCharModifiers" in
  let? cmn := address cmf in
  let? cm := struct ds "MODIFIERS" cmn in
  let? (bits, mx, mods) := match cm with
    | [[T (TP "&"); T (TId b); T (TP "["); T (TNum 0); T (TP "]")]; mx; m] =>
        let? es := array (before ds cmn) "VK_TO_BIT" b in let? bits := all_some read_bit es in
        let? mx := number mx in let? ms := fields m in let? mods := all_some number ms in Some (bits, mx, mods)
    | _ => None end in
  (* scancodes *)
  let? auf := dget fs "pusVSCtoVK" in
  let? aun := name_of auf in
  let? aus := array ds "unsigned short" aun in
  let? aus := all_some names_or aus in
  let? cnt := dget fs "bMaxVSCtoVK" in
  let? _ := opt_if (is_count aun cnt) in
  let? e0f := dget fs "pVSCtoVK_E0" in
  let? e0n := name_of e0f in
  let? e0 := array ds "VSC_VK" e0n in
  let? e0 := all_some read_vsc e0 in
  let? e1f := dget fs "pVSCtoVK_E1" in
  let? e1n := name_of e1f in
  let? e1 := array ds "VSC_VK" e1n in
  let? e1 := all_some read_vsc e1 in
  (* names *)
  let? knf := dget fs "pKeyNames" in
  let? knn := name_of knf in
  let? kn := array ds "VSC_LPWSTR" knn in
  let? kn := all_some read_keyname kn in
  let? kef := dget fs "pKeyNamesExt" in
  let? ken := name_of kef in
  let? ke := array ds "VSC_LPWSTR" ken in
  let? ke := all_some read_keyname ke in
  (* characters *)
  let? tf := dget fs "pVkToWcharTable" in
  let? tn := name_of tf in
  let? ts := array ds "VK_TO_WCHAR_TABLE" tn in
  let? ts := all_some (read_entry (before ds tn)) ts in
  (* no dead keys, no ligatures *)
  let? dk := dget fs "pDeadKey" in
  let? lg := dget fs "pLigature" in
  let? _ := opt_if (is_name "NULL" dk && is_name "NULL" lg) in
  Some {| d_defs := defs; d_ausVK := aus; d_E0 := e0; d_E1 := e1; d_names := kn; d_namesExt := ke;
          d_bits := bits; d_maxbits := mx; d_modnum := mods;
          d_wch := flat_map (fun t => match t with Some x => [x] | None => [] end) ts;
          d_tables := map (option_map fst) ts |}.
Definition read_source (t : text) : option driver :=
  let (ts, s) := lex S0 t in
  let (o, p) := cpp PBegin ts in
  let? _ := opt_if (match s with S0 => true | _ => false end) in
  let? _ := opt_if (match p with PDir _ => false | _ => true end) in
  let? _ := opt_if (forallb directive_ok o) in
  let? tr := braces (tokens_of o) in
  read_tables (macros_before o) (pieces ";" tr).
