(** Model of lulua/winkbd.py and of renderWinKbd (render.py:470-512).  The C
    source is modelled by the tables it declares: names of macros stay names,
    numbers are numbers, layout and comments of the source are left out. *)
From Verif Require Import Base LayoutModel DataWinkbd.
Open Scope string_scope.
Open Scope list_scope.

Definition chr1 (n : N) : string := String (ascii_of_N n) "".
(** winkbd.py:229-233: numbers and letters are added *)
Definition vkval : list (string * N) :=
  fold_left (fun d i => dset d (chr1 i) i) (map N.of_nat (seq 65 26))
    (fold_left (fun d i => dset d ("NUMBER" ++ chr1 i)%string i) (map N.of_nat (seq 48 10)) vkval0).
(** winkbd.py:249-251: WChar *)
Definition wchars : list (string * N) := [("NONE", 0xF000%N)].

(** Members of the enumerations.  Members with equal values are the same object
    in Python (aliases), so a member is its class and value. *)
Inductive key := KVk (v : N) | KFl (v : N) | KWc (v : N).
(** Attribute access on the enumeration; unknown names do not occur
    (WinkbdProofs.v: qwerty_known). *)
Definition attr (cls : list (string * N)) (n : string) : N := match dget cls n with Some v => v | None => 0%N end.
Definition resolve (s : sym) : key :=
  match s with VK n => KVk (attr vkval n) | VF n => KFl (attr vkflags n) end.
Definition vk (n : string) : N := attr vkval n.
(** Enum.name: an alias has the name of the first member with its value *)
Fixpoint canonical (cls : list (string * N)) (v : N) : string :=
  match cls with [] => "" | (n, w) :: r => if N.eqb v w then n else canonical r v end.
(** winkbd.py:29-32: CDefEnum.cdefName.  All names are upper case already. *)
Definition cdefName (k : key) : string :=
  (match k with
   | KVk v => "VIRTUALKEY_" ++ canonical vkval v
   | KFl v => "VIRTUALKEYFLAG_" ++ canonical vkflags v
   | KWc v => "WCHAR_" ++ canonical wchars v
   end)%string.
(** winkbd.py:417-426: the #define lines, name and value *)
Definition enumToCDefine (mk : N -> key) (cls : list (string * N)) : list (string * N) :=
  map (fun nv => (cdefName (mk (snd nv)), snd nv)) cls.
(** winkbd.py:428-432: names joined by [|] *)
Definition enumOr (ks : list key) : list string := map cdefName ks.

Fixpoint insert_by {A} (le : A -> A -> bool) (x : A) (l : list A) : list A :=
  match l with [] => [x] | y :: l' => if le y x then y :: insert_by le x l' else x :: l end.
(** Python's [sorted]: stable *)
Definition sorted_by {A} (le : A -> A -> bool) (l : list A) : list A :=
  fold_left (fun acc x => insert_by le x acc) l [].
(** Comparison of tuples *)
Fixpoint tuple_leb (a b : list N) : bool :=
  match a, b with
  | [], _ => true
  | _ :: _, [] => false
  | x :: a', y :: b' => if N.eqb x y then tuple_leb a' b' else N.ltb x y
  end.

Definition scmap := list (list N * list key).
(** winkbd.py:438-446: ausVK *)
Definition ausVK (m : scmap) : list (list string) :=
  map (fun i => enumOr (match dget m [N.of_nat i] with Some v => v | None => [KVk (vk "NULL")] end)) (seq 0 128).
Definition prefixed {V} (e : N) (kv : list N * V) : bool :=
  match fst kv with [x; _] => N.eqb x e | _ => false end.
Definition by_key {V} (a b : list N * V) : bool := tuple_leb (fst a) (fst b).
(** winkbd.py:448-454: aE0VscToVk, aE1VscToVk *)
Definition vscToVk (e : N) (m : scmap) : list (N * list string) :=
  map (fun kv => (nth 1 (fst kv) 0%N, enumOr (snd kv))) (sorted_by by_key (filter (prefixed e) m)).
(** winkbd.py:535-555: aKeyNames, aKeyNamesExt, with their last entries *)
Definition single_code {V} (kv : list N * V) : bool := match fst kv with [_] => true | _ => false end.
Definition keyNames (m : list (list N * string)) : list (N * option string) :=
  map (fun kv => (nth 0 (fst kv) 0%N, Some (snd kv))) (sorted_by by_key (filter single_code m)) ++ [(0%N, None)].
Definition keyNamesExt (m : list (list N * string)) : list (N * option string) :=
  map (fun kv => (nth 1 (fst kv) 0%N, Some (snd kv))) (sorted_by by_key (filter (prefixed 0xe0) m)) ++ [(0%N, None)].

(** winkbd.py:557-563: vkToBitsTable *)
Definition vkToBitsTable : list (N * N) :=
  [(vk "SHIFT", 1%N); (vk "CONTROL", 2%N); (vk "MENU", 4%N); (vk "OEM_8", 8%N); (vk "OEM_102", 16%N)].
(** An expression in a table: a macro or a number *)
Inductive cexpr := CName (s : string) | CNum (n : N).
(** winkbd.py:565-572 *)
Definition vkToBits : list (cexpr * N) :=
  map (fun vb => (CName (cdefName (KVk (fst vb))), snd vb)) vkToBitsTable ++ [(CNum 0, 0%N)].
(** winkbd.py:576-586: vkToLayer *)
Definition vkToLayer : list (list N) := [
  [];
  [vk "SHIFT"];
  [vk "OEM_102"];
  [vk "OEM_8"];
  [vk "SHIFT"; vk "OEM_102"];
  [vk "OEM_8"; vk "OEM_102"];
  [vk "CONTROL"];
  [vk "SHIFT"; vk "CONTROL"];
  [vk "SHIFT"; vk "OEM_8"]].
Definition disabled : N := 0x0F.
(** Equality of Python sets given by lists *)
Definition set_eqb (a b : list N) : bool := forallb (fun x => mem x b) a && forallb (fun x => mem x a) b.
(** [list.index] *)
Fixpoint index_of (p : list N -> bool) (l : list (list N)) (n : N) : option N :=
  match l with [] => None | x :: l' => if p x then Some n else index_of p l' (N.succ n) end.
(** winkbd.py:597-603: one array element *)
Definition modNumber (i : N) : N :=
  let keys := map fst (filter (fun vb => negb (N.eqb (N.land i (snd vb)) 0)) vkToBitsTable) in
  match index_of (set_eqb keys) vkToLayer 0 with Some n => n | None => disabled end.
(** winkbd.py:593, 596: wMaxModBits and the array *)
Definition maxModBits : N := 24.
Definition charModifiers : list N := map (fun i => modNumber (N.of_nat i)) (seq 0 25).

(** An entry of the character map: virtual key, flags, one text per layer *)
Definition charrow := (N * N * list (option cell))%type.
(** A row of a VK_TO_WCHARS table *)
Record wrow := mkW { w_vk : cexpr; w_flags : N; w_chars : list cexpr }.
(** winkbd.py:619-627: toRepr; len() of something that is no string is a TypeError *)
Definition toRepr (s : option cell) : res cexpr :=
  match s with
  | None => Ok (CName (cdefName (KWc 0xF000)))
  | Some (CText [c]) => Ok (CNum c)
  | Some (CText _) => Raise PlainException
  | Some COther => Raise TypeError
  end.
(** The name of a table: prefix and number of columns *)
Definition tblname := (string * nat)%type.
(** winkbd.py:614-632: generate; the rows and the last row of zeros *)
Definition generate (n : nat) (g : list charrow) : res (list wrow) :=
  do rows <- mapM (fun r => let '(v, fl, cs) := r in
                            do chars <- mapM toRepr cs; Ok (mkW (CName (cdefName (KVk v))) fl chars)) g;
  Ok (rows ++ [mkW (CNum 0) 0 (repeat (CNum 0) n)]).
(** itertools.groupby *)
Fixpoint groupby {A} (f : A -> nat) (l : list A) : list (nat * list A) :=
  match l with
  | [] => []
  | x :: l' => match groupby f l' with
               | (n, g) :: r => if Nat.eqb (f x) n then (n, x :: g) :: r else (f x, [x]) :: (n, g) :: r
               | [] => [(f x, [x])]
               end
  end.
Definition ncols (r : charrow) : nat := List.length (snd r).
(** winkbd.py:641-652 *)
Definition numpad : list charrow :=
  map (fun i => (vk ("NUMPAD" ++ chr1 i)%string, 0%N, [Some (CText [i])])) (map N.of_nat (seq 48 10)).
(** winkbd.py:607-656: vkToWchar; the tables in order of declaration, and the
    table of tables with its last entry [None] *)
Definition vkToWchar (m : list charrow) : res (list (tblname * list wrow) * list (option tblname)) :=
  let groups := groupby ncols (sorted_by (fun a b => Nat.leb (ncols a) (ncols b)) m) in
  do ts <- mapM (fun ng => do rows <- generate (fst ng) (snd ng); Ok (("", fst ng), rows)) groups;
  do np <- generate 1 numpad;
  let all := ts ++ [(("Num", 1), np)] in
  Ok (all, map (fun t => Some (fst t)) all ++ [None]).

(** winkbd.py:658-799: the declared VK_TO_WCHARS types; the entry point refers to
    the tables by fixed names *)
Definition declared_columns : list nat := seq 1 8.

Record driver := mkDrv {
  d_defs : list (string * N); d_ausVK : list (list string); d_E0 : list (N * list string); d_E1 : list (N * list string);
  d_names : list (N * option string); d_namesExt : list (N * option string); d_bits : list (cexpr * N);
  d_maxbits : N; d_modnum : list N; d_wch : list (tblname * list wrow); d_tables : list (option tblname) }.
(** winkbd.py:801-823 *)
Definition makeDriverSources (sc : scmap) (cm : list charrow) : res driver :=
  do wt <- vkToWchar cm;
  Ok {| d_defs := enumToCDefine KVk vkval ++ enumToCDefine KFl vkflags ++ enumToCDefine KWc wchars;
        d_ausVK := ausVK sc; d_E0 := vscToVk 0xe0 sc; d_E1 := vscToVk 0xe1 sc;
        d_names := keyNames qwertyScancodeToName; d_namesExt := keyNamesExt qwertyScancodeToName;
        d_bits := vkToBits; d_maxbits := maxModBits; d_modnum := charModifiers;
        d_wch := fst wt; d_tables := snd wt |}.

(** render.py:258-259: [unique] on (name, windows scancode) pairs; also in
    RenderModel.v *)
Definition unique_sc (l : list (string * list N)) : list (string * list N) :=
  dvals (dict_of (map (fun v => (snd v, v)) l)).
(** render.py:483-492 *)
Definition scancodeToVk : scmap :=
  fold_left (fun d kv => dset d (fst kv) (snd kv))
    [([0x2B%N], [KVk (vk "OEM_102")]); ([0x3A%N], [KVk (vk "OEM_102")]);
     ([0x56%N], [KVk (vk "OEM_8")]); ([0xe0%N; 0x38%N], [KVk (vk "OEM_8")])]
    (map (fun kv => (fst kv, map resolve (snd kv))) qwertyScancodeToVk).
(** render.py:495-499 *)
Definition toWindows (s : option cell) : option cell :=
  match s with Some (CText [10%N]) => Some (CText [13%N]) | _ => s end.
(** render.py:509: the first virtual key *)
Fixpoint first_vk (ks : list key) : res N :=
  match ks with KVk v :: _ => Ok v | _ :: r => first_vk r | [] => Raise StopIteration end.
(** render.py:501-510 *)
Definition wcharRow (sc : scmap) (L : layout) (btn : string * list N) : res (list charrow) :=
  let texts := getButtonText L (fst btn) in
  if forallb (fun x => match x with None => true | Some _ => false end) texts then Ok [] else
  do ks <- dgetM sc (snd btn);
  do v <- first_vk ks;
  Ok [(v, 0%N, map toWindows texts)].
Definition wcharMap (sc : scmap) (L : layout) (keys : list (string * list N)) : res (list charrow) :=
  do rs <- mapM (wcharRow sc L) (unique_sc keys);
  Ok (concat rs).
(** render.py:470-512.  For another layout than ar-lulua nothing is written. *)
Definition renderWinKbd (name : string) (L : layout) (keys : list (string * list N)) : res (option driver) :=
  if eqb name "ar-lulua" then
    do cm <- wcharMap scancodeToVk L keys;
    do d <- makeDriverSources scancodeToVk cm;
    Ok (Some d)
  else Ok None.
