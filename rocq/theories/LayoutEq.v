(** Model of comparing layouts and layers with == (layout.py:120, 158-159, 196-197). *)
From Verif Require Import Base LayoutModel.
Open Scope string_scope.
Open Scope list_scope.

(** Values of a layer.  Those which are not strings are one value of the model and
    therefore equal. *)
Definition cell_eqb (a b : cell) : bool :=
  match a, b with CText s, CText t => eqb s t | COther, COther => true | _, _ => false end.
(** dict.__eq__: as many keys, and for every key of the first the same value in the second *)
Definition dict_eqb (d d' : list (string * cell)) : bool :=
  Nat.eqb (List.length d) (List.length d') &&
  forallb (fun kv => match dget d' (fst kv) with Some v => cell_eqb (snd kv) v | None => false end) d.
(** list.__eq__ *)
Fixpoint list_eqb {A} (e : A -> A -> bool) (l l' : list A) : bool :=
  match l, l' with
  | [], [] => true
  | x :: m, y :: m' => e x y && list_eqb e m m'
  | _, _ => false
  end.
(** layout.py:120: a namedtuple is compared as tuple (modifier, layout) *)
Definition layer_eqb (l l' : layer) : bool := list_eqb eqb (lmods l) (lmods l') && dict_eqb (llayout l) (llayout l').
(** layout.py:158-159: KeyboardLayout.__eq__ *)
Definition layout_eqb (L L' : layout) : bool := list_eqb layer_eqb (layers L) (layers L').
(** layout.py:196-197: GenericLayout.__eq__ *)
Definition generic_eqb (g g' : generic) : bool := list_eqb layer_eqb (glayers g) (glayers g').
