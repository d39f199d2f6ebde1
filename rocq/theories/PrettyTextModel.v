(** Model of the text printed by lulua/stats.py:254-301 (pretty), line by line.
    PrettyModel.v has the lines as numbers and names.  Objects are printed by
    [repr]; their text is a parameter, below are those of the program.  Quotients are exact. *)
From Coq Require Import QArith Ascii.
From Verif Require Import Base LayoutModel WriterModel StatsModel CarpalxModel PlotModel KlcModel PrettyModel CsrcModel TableModel WidgetModel.
Close Scope Q_scope.
Open Scope string_scope.
Open Scope list_scope.

(** [f'{t:4s}'], [f'{word:20s}'], stats.py:272, 297: blanks to the right *)
Definition padr (w : nat) (t : text) : text := t ++ repeat 32%N (w - List.length t).
(** [f'{v}'], [f'{v:10d}'], stats.py:262-297 *)
Definition int (v : Z) : text := (if (v <? 0)%Z then lit "-" else []) ++ dec (Z.abs_N v).
Definition int10 (v : Z) : text := padl 10 (int v).
(** [f'{n-i: 3d}'], stats.py:272: a blank where the sign would be *)
Definition int3 (v : Z) : text := padl 3 ((if (v <? 0)%Z then lit "-" else lit " ") ++ dec (Z.abs_N v)).

(** keyboard.py:55-56, 102-103, 118-119: [repr] of a button; the class and what is in
    parentheses are parameters *)
Definition buttonRepr (cls args : string -> text) (b : string) : text := cls b ++ lit "(" ++ args b ++ lit ")".
(** layout.py:103-104: [repr] of a combination, with a parameter for [repr] of its sets *)
Definition combRepr (sets : bset -> text) (c : comb) : text := lit "ButtonCombination(" ++ sets (cmod c) ++ lit ", " ++ sets (cbtn c) ++ lit ")".
(** [str] of a tuple *)
Definition triadStr (shown : comb -> text) (t : triad) : text := lit "(" ++ join (lit ", ") (map shown t) ++ lit ")".
(** [repr] of a character: one of two quotes, at both ends *)
Definition charRepr (dq : N -> bool) (esc : N -> text) (c : N) : text := let q := [if dq c then 34%N else 39%N] in q ++ esc c ++ q.

Section Text.
  Variable shownButton : string -> text.    (* keyboard.py:55-56, 102-103, 118-119 *)
  Variable shownComb : comb -> text.        (* layout.py:103-104 *)
  Variable shownChar : N -> text.           (* [repr] of a str *)
  Variable shownHand : direction -> text.   (* [str] of an Enum *)
  Variable shownTriad : triad -> text.      (* [str] of a tuple *)
  Variable shownEffort : Q -> text.         (* [str] of a float *)

  (** A line without its newline *)
  Definition lineText (l : line) : text :=
    match l with
    (* stats.py:262 *)
    | Presses n => lit "button presses " ++ int n
    (* stats.py:264 *)
    | Button b v p => shownButton b ++ lit " " ++ int10 v ++ lit " " ++ padl 5 (fixed 1 p) ++ lit "%"
    (* stats.py:269 *)
    | Combinations n => lit "combinations " ++ int n
    (* stats.py:272 *)
    | Combination r t k v p => int3 r ++ lit ". " ++ padr 4 t ++ lit " " ++ shownComb k ++ lit " " ++ int10 v ++ lit " " ++ padl 7 (fixed 3 p) ++ lit "%"
    (* stats.py:274, 276 *)
    | Unknowns => lit "unknown"
    | Unknown c v => shownChar c ++ lit " " ++ int10 v
    (* stats.py:280, 283, 285, 288 *)
    | Hand h => shownHand h
    | Run k v p => padl 2 (dec (N.of_nat k)) ++ lit " " ++ int10 v ++ lit " " ++ padl 5 (fixed 1 p) ++ lit "%"
    | Combined => lit "combined"
    (* stats.py:290, 292 *)
    | Triads => lit "triads"
    | Triad t v => shownTriad t ++ lit " " ++ int10 v
    (* stats.py:295, 297 *)
    | Words n => lit "words " ++ int n
    | Word w p v => padr 20 w ++ lit " " ++ fixed 5 p ++ lit " " ++ int10 v
    (* stats.py:301 *)
    | TotalEffort e => lit "total effort (carpalx) " ++ shownEffort e
    end.
End Text.
