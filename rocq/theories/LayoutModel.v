(** Model of lulua/layout.py (without the KLC import, see KlcModel.v).
    Buttons are identified with their names, see C01. *)
From Verif Require Import Base.
Open Scope string_scope.
Open Scope list_scope.

(** layout.py:33-55: Direction, FingerType *)
Inductive direction := LEFT | RIGHT.
Inductive finger := LITTLE | RING | MIDDLE | INDEX | THUMB.
Definition finger_code (f : finger) : N :=
  match f with LITTLE => 1 | RING => 2 | MIDDLE => 3 | INDEX => 4 | THUMB => 5 end%N.
#[global] Instance EqDec_direction : EqDec direction.
Proof. apply (EqDec_inj (fun d => match d with LEFT => true | RIGHT => false end)). intros [] []; congruence. Defined.
#[global] Instance EqDec_finger : EqDec finger.
Proof. apply (EqDec_inj finger_code). intros [] []; cbn; congruence. Defined.

(** layout.py:89-118: ButtonCombination.  [__eq__] compares both sets. *)
Record comb := mkComb { cmod : bset; cbtn : bset }.
#[global] Instance EqDec_comb : EqDec comb.
Proof. apply (EqDec_inj (fun c => (cmod c, cbtn c))). intros [] []; cbn; congruence. Defined.
(** layout.py:97-98 *)
Definition comb_len (c : comb) : nat := List.length (elems (cmod c)) + List.length (elems (cbtn c)).
(** layout.py:100-101.  The iteration order within a frozenset is unspecified. *)
Definition comb_iter (c : comb) : list string := elems (cmod c) ++ elems (cbtn c).

(** Values of a layer: strings, or anything else YAML can produce (layout.py:141
    tests [isinstance(v, str)]). *)
Inductive cell := CText (t : text) | COther.

(** layout.py:120: Layer.  [llayout] is a dict. *)
Record layer := mkLayer { lmods : list bset; llayout : list (string * cell) }.

(** layout.py:124-136: slots of KeyboardLayout.  pygtrie's CharTrie is modelled
    by its contract: a finite map from strings with longest prefix lookup. *)
Record layout := mkLayout {
  layers : list layer;
  modToLayer : list (bset * (nat * layer));
  bufferLen : nat;
  trie : list (text * list comb) }.

(** layout.py:142: [t.setdefault(v, [])] *)
Definition setdefault (t : list (text * list comb)) (v : text) : list (text * list comb) :=
  match dget t v with Some _ => t | None => dset t v [] end.
(** layout.py:145: [t[v].append(comb)] *)
Definition tappend (t : list (text * list comb)) (v : text) (c : comb) : list (text * list comb) :=
  match dget t v with Some cs => dset t v (cs ++ [c]) | None => t end.

(** layout.py:140-146: one (button, v) pair of a layer *)
Definition add_cell (mods : list bset) (st : list (text * list comb) * nat) (bv : string * cell) :=
  match snd bv with
  | COther => st
  | CText v =>
      (fold_left (fun t m => tappend t v (mkComb m (frozenset [fst bv]))) mods (setdefault (fst st) v),
       Nat.max (List.length v) (snd st))
  end.
(** layout.py:137-146: one layer *)
Definition add_layer (st : list (bset * (nat * layer)) * list (text * list comb) * nat) (il : nat * layer) :=
  let '(m2l, t, bl) := st in
  let (i, l) := il in
  let (t', bl') := fold_left (add_cell (lmods l)) (llayout l) (t, bl) in
  (fold_left (fun d m => dset d m (i, l)) (lmods l) m2l, t', bl').
Definition enumerate {A} (l : list A) : list (nat * A) := combine (seq 0 (List.length l)) l.
(** layout.py:129-146: KeyboardLayout.__init__ *)
Definition layout_new (ls : list layer) : layout :=
  let '(m2l, t, bl) := fold_left add_layer (enumerate ls) ([], [], 0) in
  mkLayout ls m2l bl t.

(** pygtrie: CharTrie.longest_prefix *)
Fixpoint longest_prefix (t : list (text * list comb)) (n : nat) (buf : text) : option (text * list comb) :=
  match dget t (firstn n buf) with
  | Some cs => Some (firstn n buf, cs)
  | None => match n with O => None | S n' => longest_prefix t n' buf end
  end.
(** layout.py:148-153: KeyboardLayout.__call__ *)
Definition lookup (L : layout) (buf : text) : res (text * list comb) :=
  of_opt KeyError (longest_prefix (trie L) (List.length buf) buf).

(** layout.py:177-181 *)
Definition modifierToLayer (L : layout) (m : bset) : res (nat * layer) := dgetM (modToLayer L) m.
(** layout.py:183-185 *)
Definition isModifier (L : layout) (m : bset) : bool := dhas (modToLayer L) m.
(** util.py:27 [first]: next(iter(x)) *)
Definition first {A} (l : list A) : res A := match l with x :: _ => Ok x | [] => Raise StopIteration end.
(** layout.py:168-170.  Python evaluates the layer lookup before [first]. *)
Definition getText (L : layout) (c : comb) : res cell :=
  do il <- modifierToLayer L (cmod c);
  do b <- first (elems (cbtn c));
  dgetM (llayout (snd il)) b.
(** layout.py:172-175 *)
Definition getButtonText (L : layout) (b : string) : list (option cell) :=
  map (fun l => dget (llayout l) b) (layers L).

(** layout.py:187-194: GenericLayout; the layers hold button names. *)
Record generic := mkGeneric { gname : string; glayers : list layer }.
(** layout.py:199-200 *)
Definition generic_len (g : generic) : nat :=
  fold_left (fun n l => n + List.length (llayout l)) (glayers g) 0.
(** layout.py:202-205 *)
Definition generic_buttons (g : generic) : list (string * cell) := flat_map llayout (glayers g).

(** layout.py:211-212, 217-218: a serialized layer *)
Record layer_data := mkLD { ld_modifier : list (list string); ld_layer : list (string * cell) }.
Record generic_data := mkGD { gd_name : string; gd_layout : list layer_data }.
(** layout.py:207-213 *)
Definition generic_deserialize (d : generic_data) : generic :=
  mkGeneric (gd_name d)
    (map (fun l => mkLayer (map frozenset (ld_modifier l)) (ld_layer l)) (gd_layout d)).
(** layout.py:215-220.  [ord] is the unspecified iteration order of frozensets. *)
Definition generic_serialize (ord : bset -> list string) (g : generic) : generic_data :=
  mkGD (gname g) (map (fun l => mkLD (map ord (lmods l)) (llayout l)) (glayers g)).

(** keyboard.py:148-154 at the level of names: the keyboard is the list of names
    of its buttons (C05 relates this to the full model). *)
Definition kfind (names : list string) (x : string) : res string :=
  if mem x names then Ok x else Raise KeyError.
(** layout.py:222-233: specialize.  [ord] is again an iteration order. *)
Definition specialize_layer (ord : bset -> list string) (names : list string) (l : layer) : res layer :=
  do mods <- mapM (fun m => do bs <- mapM (kfind names) (ord m); Ok (frozenset bs)) (lmods l);
  do cells <- mapM (fun nv => do b <- kfind names (fst nv); Ok (b, snd nv)) (llayout l);
  Ok (mkLayer mods (dict_of cells)).
Definition specialize (ord : bset -> list string) (names : list string) (g : generic) : res layout :=
  do ls <- mapM (specialize_layer ord names) (glayers g);
  Ok (layout_new ls).
(** layout.py:164-166: copy() calls the constructor without the mandatory
    [keyboard] argument. *)
Definition layout_copy (L : layout) : res layout := Raise TypeError.
