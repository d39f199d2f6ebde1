(** Model of the text printed by latinImeDict, lulua/stats.py:371-394 (the values are in PlotModel.v). *)
From Coq Require Import Ascii.
From Verif Require Import Base LayoutModel StatsModel PlotModel KlcModel CsrcModel.
Open Scope string_scope.
Open Scope list_scope.

(** [str] of an integer *)
Definition zdec (z : Z) : text := if (z <? 0)%Z then lit "-" ++ dec (Z.to_N (- z)) else dec (Z.to_N z).
(** stats.py:388-390 *)
Definition wordlistHead (now : Z) : text :=
  lit "# auto-generated by lulua" ++ nl ++ lit "dictionary=main:ar,locale=ar,description=Arabic wordlist,date=" ++ zdec now ++ lit ",version=1" ++ nl.
(** stats.py:394 *)
Definition wordLine (word : text) (f : Z) : text := lit " word=" ++ word ++ lit ",f=" ++ zdec f ++ nl.
(** stats.py:392-394: what is printed until the end or the first exception *)
Fixpoint wordLines (total : Z) (l : list (text * Z)) : text * option exn :=
  match l with
  | [] => ([], None)
  | (word, count) :: l' =>
      match f_value count total with
      | Ok f => let (t, e) := wordLines total l' in (wordLine word f ++ t, e)
      | Raise e => ([], Some e)
      end
  end.
(** stats.py:385-394; [now] is the time in seconds *)
Definition latinImeDict (now : Z) (words : list (text * Z)) : text * option exn :=
  let (t, e) := wordLines (zsum (dvals words)) (sorted_by (fun a b => (snd b <=? snd a)%Z) words) in (wordlistHead now ++ t, e).
