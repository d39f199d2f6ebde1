(** Model of the tables of corpora, lulua/data/report/index.html:158-184, 192-218. *)
From Coq Require Import Ascii.
From Verif Require Import Base LayoutModel TextModel PlotModel ReportModel KlcModel CsrcModel.
Open Scope string_scope.
Open Scope list_scope.

(** A document of metadata (corpus/*/metadata.yaml with the statistics of stats.py:396-406), as far as shown.
    [c_count] is number and kind in English and Arabic, [c_stats] words and characters. *)
Record cdoc := mkCdoc { c_url : text; c_en : text; c_ar : text; c_count : option (N * text * text); c_stats : N * N }.

(** * Formats *)
(** A comma before each three digits, from the end; [l] is reversed *)
Fixpoint commas (l : text) : text :=
  match l with
  | a :: b :: c :: ((_ :: _) as r) => a :: b :: c :: 44%N :: commas r
  | _ => l
  end.
Definition padl (w : nat) (t : text) : text := repeat 32%N (w - List.length t) ++ t.
(** [{:7,d}], index.html:165, 199, not negative *)
Definition fmt7 (n : N) : text := padl 7 (rev (commas (rev (dec n)))).
(** [%5.1f] of a number in tenths, not negative; conversion to float is taken as exact. *)
Definition fmt51 (r : N) : text := padl 5 (dec (r / 10) ++ lit "." ++ dec (r mod 10)).

(** * Cells *)
Definition td (t : text) : text := lit "<td>" ++ t ++ lit "</td>".
(** Filter and separator of both languages: index.html:165, 173, 180 and 199, 207, 214 *)
Definition filter_num (ar : bool) (t : text) : text := if ar then arabnum t else numspace t.
Definition gap (ar : bool) : text := if ar then lit " " else lit "&#x2008;".
Definition lang (ar : bool) : string := if ar then "ar" else "en".
(** index.html:161, 195 *)
Definition nameCell (ar : bool) (c : cdoc) : text := td (lit "<a href=" ++ quote ++ c_url c ++ quote ++ lit ">" ++ (if ar then c_ar c else c_en c) ++ lit "</a>").
(** index.html:162-168, 196-202 *)
Definition countCell (ar : bool) (c : cdoc) : text :=
  td match c_count c with
     | Some (n, en, arab) => filter_num ar (fmt7 n) ++ gap ar ++ (if ar then arab else en)
     | None => []
     end.
(** index.html:172-173, 206-207 *)
Definition approxCell (ar : bool) (n : N) : res text :=
  do a <- approx (lang ar) (mkDec (Z.of_N n) 0);
  match a with
  | Some (r, u) => Ok (td (filter_num ar (fmt51 (Z.to_N r)) ++ gap ar ++ u))
  | None => Raise PlainException         (* decimal.InvalidOperation *)
  end.
Definition tr (cells : list text) : text := lit "<tr>" ++ concat cells ++ lit "</tr>".
(** index.html:160-175, 194-209; white space between elements is left out. *)
Definition rowText (ar : bool) (c : cdoc) : res text :=
  do w <- approxCell ar (fst (c_stats c)); do h <- approxCell ar (snd (c_stats c)); Ok (tr [nameCell ar c; countCell ar c; w; h]).
(** index.html:177-182, 211-216 and report.py:121-123 *)
Definition totalWord (ar : bool) : text := if ar then [0x645; 0x62C; 0x645; 0x648; 0x639]%N else lit "Total".
Definition sumN (l : list N) : N := fold_right N.add 0%N l.
Definition totalText (ar : bool) (cs : list cdoc) : res text :=
  do w <- approxCell ar (sumN (map (fun c => fst (c_stats c)) cs)); do h <- approxCell ar (sumN (map (fun c => snd (c_stats c)) cs));
  Ok (tr [td (totalWord ar); td []; w; h]).
(** Comparison of strings by code points *)
Fixpoint text_le (a b : text) : bool :=
  match a, b with
  | [], _ => true
  | _, [] => false
  | x :: a', y :: b' => (x <? y)%N || ((x =? y)%N && text_le a' b')
  end.
(** jinja2 filter sort: upper and lower case alike, index.html:159, 193 *)
Definition sortedCorpora (lower : text -> text) (cs : list cdoc) : list cdoc := sorted_by (fun a b => text_le (lower (c_en a)) (lower (c_en b))) cs.
Definition tableText (lower : text -> text) (ar : bool) (cs : list cdoc) : res text :=
  do rows <- mapM (rowText ar) (sortedCorpora lower cs); do t <- totalText ar cs; Ok (concat rows ++ t).
