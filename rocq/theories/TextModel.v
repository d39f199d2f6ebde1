(** Model of the text preparation in lulua/text.py:292-328, 350-352. *)
From Verif Require Import Base.
Open Scope list_scope.

(** text.py:292-317 *)
Definition charMap : list (N * text) := [
  (0xFEFB, [0x644; 0x627]); (0x623, [0x627; 0x654]); (0x625, [0x627; 0x655]); (0x626, [0x64A; 0x654]);
  (0x624, [0x648; 0x654]); (0x2C, [0x60C]); (0x622, [0x627; 0x653]); (0x25, [0x66A]);
  (0x30, [0x660]); (0x31, [0x661]); (0x32, [0x662]); (0x33, [0x663]); (0x34, [0x664]);
  (0x35, [0x665]); (0x36, [0x666]); (0x37, [0x667]); (0x38, [0x668]); (0x39, [0x669]);
  (0x3F, [0x61F]); (0x3B, [0x61B]); (0xFEF9, [0x644; 0x627; 0x655]); (0xFEF7, [0x644; 0x627; 0x654]);
  (0xA0, [0x20])]%N.
(** text.py:319-321 *)
Definition mapChars (m : list (N * text)) (t : text) : text :=
  flat_map (fun x => match dget m x with Some y => y | None => [x] end) t.
(** [text.replace ('\r\n', '\n')] *)
Fixpoint replace_crlf (t : text) : text :=
  match t with
  | (13%N :: t1) as t0 => match t1 with (10%N :: t') => 10%N :: replace_crlf t' | _ => 13%N :: replace_crlf t1 end
  | c :: t1 => c :: replace_crlf t1
  | [] => []
  end.
(** text.py:352 *)
Definition prepare (t : text) : text := replace_crlf (mapChars charMap t).

(** text.py:323-328.  Filters are functions from an item to the list of items
    they yield; Python evaluates them lazily, which is only observable through
    exceptions and side effects. *)
Fixpoint apply_filters {A} (fs : list (A -> list A)) (items : list A) : list A :=
  match fs with
  | [] => items
  | f :: fs' => apply_filters fs' (flat_map f items)
  end.
(** The same for filters that may raise. *)
Fixpoint apply_filtersM {A} (fs : list (A -> res (list A))) (items : list A) : res (list A) :=
  match fs with
  | [] => Ok items
  | f :: fs' => do xs <- mapM f items; apply_filtersM fs' (concat xs)
  end.
