(** Model of the macro fingerhandstats as text, lulua/data/report/index.html:404-426.
    White space between elements is left out. *)
From Coq Require Import QArith Ascii.
From Verif Require Import Base LayoutModel TextModel PlotModel ReportModel PageModel KlcModel CsrcModel.
Close Scope Q_scope.
Open Scope string_scope.
Open Scope list_scope.

(** ['%.kf'|format(q)]: rounded half to even; the sign stays even if nothing else is left.
    Floats are taken as exact. *)
Definition zfill (k : nat) (t : text) : text := repeat 48%N (k - List.length t) ++ t.
Definition fixed (k : nat) (q : Q) : text :=
  let p := (10 ^ N.of_nat k)%N in
  let n := Z.to_N (round_he (Z.abs (Qnum q) * Z.of_N p) (Zpos (Qden q))) in
  (if (Qnum q <? 0)%Z then lit "-" else []) ++ dec (n / p) ++ lit "." ++ zfill k (dec (n mod p)).

(** [hand.name.lower ()], [finger.name.lower ()], layout.py:34-36, 42-48 *)
Definition handName (h : direction) : text := lit match h with LEFT => "left" | RIGHT => "right" end.
Definition fingerName (f : finger) : text :=
  lit match f with LITTLE => "little" | RING => "ring" | MIDDLE => "middle" | INDEX => "index" | THUMB => "thumb" end.
(** index.html:410, 417: a box as wide as given *)
Definition box (class : text) (width : Q) : text :=
  lit "<div class=" ++ quote ++ class ++ quote ++ lit " style=" ++ quote ++ lit "width: " ++ fixed 3 width ++ lit "%;" ++ quote ++ lit ">".
(** index.html:417 *)
Definition fingerText (x : finger * Q * Q) : text :=
  let '(f, width, pct) := x in box (fingerName f) width ++ fixed 2 pct ++ lit "</div>".
Definition divClass (c : string) : text := lit "<div class=" ++ quote ++ lit c ++ quote ++ lit ">".
(** index.html:410-420 *)
Definition handText (x : direction * Q * list (finger * Q * Q)) : text :=
  let '(h, pct, fs) := x in
  box (handName h) pct ++ divClass "hand" ++ fixed 2 pct ++ lit "%</div>" ++ divClass "fingers" ++ concat (map fingerText fs) ++ lit "</div></div>".
(** index.html:421-423 *)
Definition asymmText (q : Q) : text := divClass "asymm" ++ lit "<small>Asymmetry: " ++ fixed 3 q ++ lit "</small></div>".
(** index.html:407-425: after the first hand comes the asymmetry *)
Definition widget (asymmetry : Q) (t : list (direction * Q * list (finger * Q * Q))) : text :=
  lit "<div class=" ++ quote ++ lit "fingerhandstats" ++ quote ++ lit " dir=" ++ quote ++ lit "ltr" ++ quote ++ lit " lang=" ++ quote ++ lit "en" ++ quote ++ lit ">" ++
  match t with [] => [] | h :: hs => handText h ++ asymmText asymmetry ++ concat (map handText hs) end ++ lit "</div>".
Definition fingerhandText (r : lstats) : res text := do t <- fingerhandstats r; Ok (widget (ls_asymmetry r) t).
