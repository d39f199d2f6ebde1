(** Model of lulua/keyboard.py. *)
From Coq Require Import QArith.
From Verif Require Import Base.
Close Scope Q_scope.
Open Scope string_scope.
Open Scope list_scope.

(** * YAML-ish values
    What [yaml.safe_load] produces, plus Python tuples.  [YRef] is a reference
    to a mutable dict object living in the heap; only scancode tables are kept
    there, because they are the only objects [Button] shares with its input. *)
Inductive yval :=
  | YNone | YBool (b : bool) | YNum (q : Q) | YStr (s : string)
  | YList (l : list yval) | YTuple (l : list yval) | YRef (loc : nat).

Definition truthy (v : yval) : bool :=
  match v with
  | YNone => false
  | YBool b => b
  | YNum q => negb (Qeq_bool q 0)
  | YStr s => negb (String.eqb s "")
  | YList l | YTuple l => match l with [] => false | _ => true end
  | YRef _ => true
  end.

(** [hash(v)] succeeds: needed for use as dict key. *)
Fixpoint hashable (v : yval) : bool :=
  match v with
  | YList _ | YRef _ => false
  | YTuple l => (fix all l := match l with [] => true | x :: l' => hashable x && all l' end) l
  | _ => true
  end.

Definition ydict := list (string * yval).

(** * The name registry
    keyboard.py:31-33 (class attributes _idToName, _nameToId, _nextNameId). *)
Record registry := mkReg { idToName : list (N * string); nameToId : list (string * N); nextNameId : N }.
Definition reg0 : registry := mkReg [] [] 0.

(** keyboard.py:38-44: the id part of [Button.__init__]. *)
Definition intern (r : registry) (name : string) : N * registry :=
  match dget (nameToId r) name with
  | Some i => (i, r)
  | None => let i := nextNameId r in
            (i, mkReg (dset (idToName r) i name) (dset (nameToId r) name i) (i + 1)%N)
  end.

(** keyboard.py:66-68: property [name] of a button with id [i]. *)
Definition name_of (r : registry) (i : N) : res string := dgetM (idToName r) i.

(** * Buttons *)
Inductive kind := Standard | Letter | Multi.   (* classes Button, LetterButton, MultiRowButton *)
Definition kind_name (k : kind) : string :=    (* keyboard.py:34, 97, 112: serializedName *)
  match k with Standard => "standard" | Letter => "letter" | Multi => "multi" end.
(** keyboard.py:72-73: kindMap *)
Definition kindMap : list (string * kind) :=
  [(kind_name Standard, Standard); (kind_name Letter, Letter); (kind_name Multi, Multi)].

(** keyboard.py:30, 111: the slots.  [bscan] is [None] or a reference to a heap
    dict.  Simplification: other scancode values (strings, numbers, lists) are
    rejected with TypeError by the model; the shipped files only use dicts. *)
Record button := mkButton {
  bid : N; bkind : kind; bwidth : yval; bmarked : yval; bspan : option yval; bscan : option nat }.

Record world := mkWorld { wreg : registry; wheap : list ydict }.

Definition heap_get (h : list ydict) (l : nat) : ydict := nth l h [].
Fixpoint heap_set (h : list ydict) (l : nat) (d : ydict) : list ydict :=
  match h, l with
  | [], _ => []
  | _ :: h', O => d :: h'
  | x :: h', S l' => x :: heap_set h' l' d
  end.

(** [tuple(v)] for the values that occur; strings would be split in characters
    by Python, the model rejects them. *)
Definition to_tuple (v : yval) : res yval :=
  match v with YList l | YTuple l => Ok (YTuple l) | _ => Raise TypeError end.
Definition to_list (v : yval) : res yval :=
  match v with YList l | YTuple l => Ok (YList l) | _ => Raise TypeError end.

(** keyboard.py:52-53 and 88-89: replace the 'windows' entry by f of it, in
    place.  [if self.scancode and 'windows' in self.scancode] *)
Definition upd_windows (f : yval -> res yval) (h : list ydict) (s : option nat) : res (list ydict) :=
  match s with
  | None => Ok h
  | Some l =>
      match dget (heap_get h l) "windows" with
      | None => Ok h
      | Some v => do v' <- f v; Ok (heap_set h l (dset (heap_get h l) "windows" v'))
      end
  end.

(** keyboard.py:36-53, 99-100, 114-116: construction of any of the three classes. *)
Definition button_new (w : world) (k : kind) (name : string) (width marked : yval)
    (span : option yval) (scan : option nat) : world * res button :=
  let (i, r) := intern (wreg w) name in
  match upd_windows to_tuple (wheap w) scan with
  | Raise e => (mkWorld r (wheap w), Raise e)
  | Ok h => (mkWorld r h, Ok (mkButton i k width marked span scan))
  end.

Definition init_params (k : kind) : list string :=
  match k with
  | Standard | Letter => ["name"; "width"; "isMarked"; "scancode"]
  | Multi => ["name"; "span"; "width"; "isMarked"; "scancode"]
  end.
Definition getdef (d : ydict) (k : string) (v : yval) : yval :=
  match dget d k with Some x => x | None => v end.

(** keyboard.py:70-79: [Button.deserialize].  Returns the world, the (mutated)
    argument, and the button.  The keyword call [kindMap[kind](data as keywords)] raises
    TypeError for unknown or missing parameters. *)
Definition button_deserialize (w : world) (data : ydict) : world * ydict * res button :=
  let (kd, data') :=
    match dget data "kind" with
    | Some v => (v, ddel data "kind")
    | None => (YStr "standard", data)
    end in
  match kd with
  | YStr s =>
      match dget kindMap s with
      | None => (w, data', Raise KeyError)
      | Some k =>
          if negb (forallb (fun x => mem x (init_params k)) (dkeys data')) then (w, data', Raise TypeError)
          else
            match dget data' "name" with
            | Some (YStr name) =>
                let width := getdef data' "width" (YNum 1) in
                let marked := getdef data' "isMarked" (YBool false) in
                match getdef data' "scancode" YNone with
                | YNone | YRef _ =>
                    let scan := match getdef data' "scancode" YNone with YRef l => Some l | _ => None end in
                    match k, dget data' "span" with
                    | Multi, None => (w, data', Raise TypeError)
                    | Multi, Some sp =>
                        let (w', b) := button_new w k name width marked (Some sp) scan in (w', data', b)
                    | _, _ =>
                        let (w', b) := button_new w k name width marked None scan in (w', data', b)
                    end
                | _ => (w, data', Raise TypeError)
                end
            | _ => (w, data', Raise TypeError)
            end
      end
  | YList _ | YRef _ => (w, data', Raise TypeError)   (* unhashable *)
  | _ => (w, data', Raise KeyError)
  end.

Definition scan_val (s : option nat) : yval := match s with Some l => YRef l | None => YNone end.

(** keyboard.py:81-90 and 121-124: [serialize].  Note that [d['scancode']] is
    the very object the button refers to. *)
Definition button_serialize (w : world) (b : button) : world * res ydict :=
  match name_of (wreg w) (bid b) with
  | Raise e => (w, Raise e)
  | Ok name =>
      let d0 := [("name", YStr name); ("width", bwidth b); ("scancode", scan_val (bscan b))] in
      let d1 := match bkind b with Standard => d0 | k => dset d0 "kind" (YStr (kind_name k)) end in
      let d2 := if truthy (bmarked b) then dset d1 "isMarked" (bmarked b) else d1 in
      match upd_windows to_list (wheap w) (bscan b) with
      | Raise e => (w, Raise e)
      | Ok h => (mkWorld (wreg w) h,
                 Ok match bspan b with Some sp => dset d2 "span" sp | None => d2 end)
      end
  end.

(** * Keyboards *)
Record keyboard := mkKeyboard {
  kname : yval; kdesc : yval; krows : list (list button * list button);
  kbtorow : list (N * nat) }.   (* _buttonToRow, keyed by button id *)

(** keyboard.py:134-137 *)
Fixpoint fill_rows (i : nat) (rows : list (list button * list button)) (d : list (N * nat)) : list (N * nat) :=
  match rows with
  | [] => d
  | (l, r) :: rows' =>
      fill_rows (S i) rows' (fold_left (fun d b => dset d (bid b) i) (l ++ r) d)
  end.
(** keyboard.py:129-137 *)
Definition keyboard_new (name desc : yval) (rows : list (list button * list button)) : keyboard :=
  mkKeyboard name desc rows (fill_rows 0 rows []).

(** keyboard.py:156-159 *)
Definition kb_keys (kb : keyboard) : list button := flat_map (fun row => fst row ++ snd row) (krows kb).
(** keyboard.py:145-146 *)
Definition kb_len (kb : keyboard) : nat :=
  fold_left (fun n row => n + (List.length (fst row) + List.length (snd row))) (krows kb) 0.
(** keyboard.py:148-154 *)
Fixpoint find_button (r : registry) (l : list button) (name : string) : res button :=
  match l with
  | [] => Raise KeyError
  | b :: l' => do n <- name_of r (bid b); if String.eqb n name then Ok b else find_button r l' name
  end.
Definition kb_getitem (r : registry) (kb : keyboard) (name : string) : res button :=
  find_button r (kb_keys kb) name.
(** keyboard.py:161-162 *)
Definition kb_find := kb_getitem.
(** keyboard.py:164-165 *)
Definition kb_getRow (kb : keyboard) (b : button) : res nat := dgetM (kbtorow kb) (bid b).

(** Serialized keyboards: name, description, rows of pairs of button data. *)
Record kdata := mkKdata { dname : yval; ddesc : yval; drows : list (list ydict * list ydict) }.

Fixpoint deser_list (w : world) (l : list ydict) : world * res (list button) :=
  match l with
  | [] => (w, Ok [])
  | d :: l' =>
      match button_deserialize w d with
      | (w1, _, Raise e) => (w1, Raise e)
      | (w1, _, Ok b) =>
          match deser_list w1 l' with
          | (w2, Ok bs) => (w2, Ok (b :: bs))
          | (w2, Raise e) => (w2, Raise e)
          end
      end
  end.
Fixpoint deser_rows (w : world) (rows : list (list ydict * list ydict)) : world * res (list (list button * list button)) :=
  match rows with
  | [] => (w, Ok [])
  | (l, r) :: rows' =>
      match deser_list w l with
      | (w1, Raise e) => (w1, Raise e)
      | (w1, Ok bl) =>
          match deser_list w1 r with
          | (w2, Raise e) => (w2, Raise e)
          | (w2, Ok br) =>
              match deser_rows w2 rows' with
              | (w3, Ok rs) => (w3, Ok ((bl, br) :: rs))
              | (w3, Raise e) => (w3, Raise e)
              end
          end
      end
  end.
(** keyboard.py:167-177.  Missing 'rows'/'name'/'description' keys of the
    outermost dict are not modelled. *)
Definition kb_deserialize (w : world) (d : kdata) : world * res keyboard :=
  match deser_rows w (drows d) with
  | (w', Ok rows) => (w', Ok (keyboard_new (dname d) (ddesc d) rows))
  | (w', Raise e) => (w', Raise e)
  end.

Fixpoint ser_list (w : world) (l : list button) : world * res (list ydict) :=
  match l with
  | [] => (w, Ok [])
  | b :: l' =>
      match button_serialize w b with
      | (w1, Raise e) => (w1, Raise e)
      | (w1, Ok d) =>
          match ser_list w1 l' with
          | (w2, Ok ds) => (w2, Ok (d :: ds))
          | (w2, Raise e) => (w2, Raise e)
          end
      end
  end.
Fixpoint ser_rows (w : world) (rows : list (list button * list button)) : world * res (list (list ydict * list ydict)) :=
  match rows with
  | [] => (w, Ok [])
  | (l, r) :: rows' =>
      match ser_list w l with
      | (w1, Raise e) => (w1, Raise e)
      | (w1, Ok dl) =>
          match ser_list w1 r with
          | (w2, Raise e) => (w2, Raise e)
          | (w2, Ok dr) =>
              match ser_rows w2 rows' with
              | (w3, Ok rs) => (w3, Ok ((dl, dr) :: rs))
              | (w3, Raise e) => (w3, Raise e)
              end
          end
      end
  end.
(** keyboard.py:179-188 *)
Definition kb_serialize (w : world) (kb : keyboard) : world * res kdata :=
  match ser_rows w (krows kb) with
  | (w', Ok rows) => (w', Ok (mkKdata (kname kb) (kdesc kb) rows))
  | (w', Raise e) => (w', Raise e)
  end.

(** Writing the data to a file and loading it again (yaml.dump/safe_load, not
    lulua code): every dict becomes a fresh object with equal contents. *)
Definition reload1 (h : list ydict) (d : ydict) : list ydict * ydict :=
  match dget d "scancode" with
  | Some (YRef l) => (h ++ [heap_get h l], dset d "scancode" (YRef (List.length h)))
  | _ => (h, d)
  end.
Fixpoint reload_list (h : list ydict) (l : list ydict) : list ydict * list ydict :=
  match l with
  | [] => (h, [])
  | d :: l' => let (h1, d') := reload1 h d in let (h2, ds) := reload_list h1 l' in (h2, d' :: ds)
  end.
Fixpoint reload_rows (h : list ydict) (rows : list (list ydict * list ydict)) :=
  match rows with
  | [] => (h, [])
  | (l, r) :: rows' =>
      let (h1, l') := reload_list h l in
      let (h2, r') := reload_list h1 r in
      let (h3, rs) := reload_rows h2 rows' in (h3, (l', r') :: rs)
  end.
Definition reload (w : world) (d : kdata) : world * kdata :=
  let (h, rows) := reload_rows (wheap w) (drows d) in
  (mkWorld (wreg w) h, mkKdata (dname d) (ddesc d) rows).
