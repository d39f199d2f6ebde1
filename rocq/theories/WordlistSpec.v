(** Reader for word lists of LatinIME (makedict, CombinedInputOutput.java): lines of attributes
    separated by commas, comments begin with #; the first line is about the dictionary, the others are words. *)
From Coq Require Import Ascii.
From Verif Require Import Base LayoutModel KlcModel FilesSpec.
Open Scope string_scope.
Open Scope list_scope.

(** As BufferedReader.readLine, except that CR LF counts twice *)
Definition is_eol (c : N) : bool := (c =? 10)%N || (c =? 13)%N.
Fixpoint drop_last (l : list text) : list text := match l with [] => [] | [[]] => [] | x :: l' => x :: drop_last l' end.
Definition file_lines (t : text) : list text := drop_last (split (S (List.length t)) is_eol t).
(** String.trim *)
Fixpoint ltrim (t : text) : text := match t with c :: t' => if (c <=? 32)%N then ltrim t' else t | [] => [] end.
Definition trim (t : text) : text := rev (ltrim (rev (ltrim t))).
Definition is_sep (c : N) : bool := (c =? 44)%N.
Definition is_equals (c : N) : bool := (c =? 61)%N.
Definition item (t : text) : option (text * text) := match cut is_equals t with (k, Some v) => Some (k, v) | _ => None end.
Definition items (t : text) : option (list (text * text)) := all_of item (split (S (List.length t)) is_sep t).
Definition is_comment (t : text) : bool := match t with c :: _ => (c =? 35)%N | [] => false end.
(** Only words without shortcuts and bigrams; frequencies fit a byte. *)
Definition read_word (t : text) : option (text * Z) :=
  match items (trim t) with
  | Some [(k, w); (k', (_ :: _) as f)] =>
      if eqb k (lit "word") && eqb k' (lit "f") then
        match number 0 f with Some n => if (n <=? 255)%N then Some (w, Z.of_N n) else None | None => None end
      else None
  | _ => None
  end.
Definition read_list (t : text) : option (list (text * text) * list (text * Z)) :=
  match filter (fun l => negb (is_comment l)) (file_lines t) with
  | h :: ls => match items h, all_of read_word ls with Some a, Some ws => Some (a, ws) | _, _ => None end
  | [] => None
  end.
