(** Model of the fonts in pictures, lulua/render.py:275-297, and of base64.b64encode. *)
From Coq Require Import QArith Ascii.
From Verif Require Import Base LayoutModel KlcModel CsrcModel.
Close Scope Q_scope.
Open Scope string_scope.
Open Scope list_scope.

(** * base64.b64encode (Python 3.11): characters of six bits each, filled up by = *)
Definition b64char (n : N) : N :=
  (if n <? 26 then 65 + n else if n <? 52 then 71 + n else if n <? 62 then n - 4 else if n =? 62 then 43 else 47)%N.
Fixpoint b64encode (l : list N) : text :=
  match l with
  | [] => []
  | [a] => [b64char (a / 4); b64char (a mod 4 * 16); 61; 61]%N
  | [a; b] => [b64char (a / 4); b64char (a mod 4 * 16 + b / 16); b64char (b mod 16 * 4); 61]%N
  | a :: b :: c :: l' => [b64char (a / 4); b64char (a mod 4 * 16 + b / 16); b64char (b mod 16 * 4 + c / 64); b64char (c mod 64)]%N ++ b64encode l'
  end.

(** render.py:287-293: lines are indented by 16 blanks *)
Definition indent : text := repeat 32%N 16.
Definition fontFace (font : string) (weight : N) (data : text) : text :=
  join (nl ++ indent)
    [[]; lit "@font-face {"; lit "font-family: '" ++ lit font ++ lit "';"; lit "font-style: normal;"; lit "font-weight: " ++ dec weight ++ lit ";";
     lit "src: url(" ++ quote ++ lit "data:application/font-woff2;charset=utf-8;base64," ++ data ++ quote ++ lit ") format('woff2');"; lit "}"; []].
(** render.py:280-283 *)
Definition fonts : list (string * N * string) := [
  ("IBM Plex Sans Arabic", 100%N, "3rdparty/plex/IBM-Plex-Sans-Arabic/fonts/complete/woff2/IBMPlexSansArabic-Thin.woff2");
  ("IBM Plex Sans Arabic", 400%N, "3rdparty/plex/IBM-Plex-Sans-Arabic/fonts/complete/woff2/IBMPlexSansArabic-Regular.woff2")].
(** render.py:279-296; [read] opens and reads a file, [sheet] is the decoded style sheet *)
Definition styleText (read : string -> res (list N)) (sheet : text) : res text :=
  do style <- foldM (fun style f => match f with (font, weight, path) => do bytes <- read path; Ok (style ++ fontFace font weight (b64encode bytes)) end) fonts [];
  Ok (style ++ sheet).
