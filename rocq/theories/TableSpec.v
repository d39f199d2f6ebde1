(** How a reader of the page understands the tables: rows and cells of HTML, numbers in both languages. *)
From Coq Require Import Ascii.
From Verif Require Import Base LayoutModel KlcModel FilesSpec.
Open Scope string_scope.
Open Scope list_scope.

(** * HTML: rows, cells, links and character references *)
Definition is_lt (c : N) : bool := (c =? 60)%N.
Definition is_dq (c : N) : bool := (c =? 34)%N.
Definition is_amp (c : N) : bool := (c =? 38)%N.
Definition is_semi (c : N) : bool := (c =? 59)%N.
(** Only hexadecimal references *)
Fixpoint chars (fuel : nat) (t : text) : option text :=
  match fuel with
  | O => None
  | S f =>
      match cut is_amp t with
      | (a, None) => Some a
      | (a, Some r) =>
          match cut is_semi r with
          | (ref, Some r) =>
              match after (lit "#x") ref with
              | Some ((_ :: _) as h) => match hexnum 0 h, chars f r with Some n, Some u => Some (a ++ n :: u) | _, _ => None end
              | _ => None end
          | _ => None end
      end
  end.
Definition content (t : text) : option text := chars (S (List.length t)) t.
(** A cell: address and text *)
Definition cell := (option text * text)%type.
Definition read_td (t : text) : option (cell * text) :=
  match after (lit "<a href=") t with
  | Some u =>
      match u with
      | q :: u => if is_dq q then
          match cut is_dq u with
          | (url, Some u) => match after (lit ">") u with
                             | Some u => match cut is_lt u with
                                         | (s, Some u) => match content s, after (lit "/a></td>") u with Some s, Some r => Some ((Some url, s), r) | _, _ => None end
                                         | _ => None end
                             | None => None end
          | _ => None end else None
      | [] => None
      end
  | None =>
      match cut is_lt t with
      | (s, Some u) => match content s, after (lit "/td>") u with Some s, Some r => Some ((None, s), r) | _, _ => None end
      | _ => None
      end
  end.
Fixpoint read_cells (fuel : nat) (t : text) : option (list cell * text) :=
  match fuel with
  | O => None
  | S f =>
      match after (lit "<td>") t with
      | Some t => match read_td t with
                  | Some (c, t) => match read_cells f t with Some (l, t) => Some (c :: l, t) | None => None end
                  | None => None end
      | None => Some ([], t)
      end
  end.
Fixpoint read_rows (fuel : nat) (t : text) : option (list (list cell)) :=
  match fuel with
  | O => None
  | S f =>
      match t with
      | [] => Some []
      | _ => match after (lit "<tr>") t with
             | Some t => match read_cells (S (List.length t)) t with
                         | Some (cs, t) => match after (lit "</tr>") t with
                                           | Some t => option_map (cons cs) (read_rows f t)
                                           | None => None end
                         | None => None end
             | None => None end
      end
  end.
Definition read_html (t : text) : option (list (list cell)) := read_rows (S (List.length t)) t.

(** * Numbers *)
(** Signs of a language: zero, between groups of three digits, before tenths, filling, before units *)
Record signs := mkSigns { s_zero : N; s_group : N; s_point : N; s_fill : N; s_gap : N }.
(** FIGURE SPACE is as wide as digits, PUNCTUATION SPACE as the point *)
Definition english : signs := mkSigns 48 44 46 0x2007 0x2008.
(** ARABIC-INDIC DIGITs, ARABIC THOUSANDS SEPARATOR, ARABIC DECIMAL SEPARATOR *)
Definition arabic : signs := mkSigns 0x660 0x66C 0x66B 32 32.
Definition digit (s : signs) (c : N) : option N := if ((s_zero s <=? c) && (c <=? s_zero s + 9))%N then Some (c - s_zero s)%N else None.
Fixpoint digits (s : signs) (acc : N) (t : text) : option N :=
  match t with [] => Some acc | c :: t' => match digit s c with Some d => digits s (10 * acc + d) t' | None => None end end.
(** The first group has one to three digits, the others have three. *)
Definition three (t : text) : bool := Nat.eqb (List.length t) 3.
Definition grouped (s : signs) (t : text) : option N :=
  match split (S (List.length t)) (fun c => c =? s_group s)%N t with
  | g :: gs => if (1 <=? List.length g)%nat && (List.length g <=? 3)%nat && forallb three gs then digits s 0 (g ++ concat gs) else None
  | [] => None
  end.
(** In tenths; one digit after the point *)
Definition tenths (s : signs) (t : text) : option N :=
  match cut (fun c => c =? s_point s)%N t with
  | ((_ :: _) as a, Some [d]) => digits s 0 (a ++ [d])
  | _ => None
  end.
Fixpoint unfill (s : signs) (t : text) : text := match t with c :: t' => if (c =? s_fill s)%N then unfill s t' else t | [] => [] end.
(** A number with what is counted *)
Definition amount_of (s : signs) (num : signs -> text -> option N) (t : text) : option (N * text) :=
  match cut (fun c => c =? s_gap s)%N (unfill s t) with
  | (n, Some u) => option_map (fun n => (n, u)) (num s n)
  | _ => None
  end.
(** The rows: address, name, number of things, words and characters in tenths of a unit *)
Record row := mkRow { r_url : option text; r_name : text; r_count : option (N * text); r_words : N * text; r_chars : N * text }.
Definition read_row (s : signs) (l : list cell) : option row :=
  match l with
  | [(url, name); (None, n); (None, w); (None, h)] =>
      match (match n with [] => Some None | _ => option_map Some (amount_of s grouped n) end), amount_of s tenths w, amount_of s tenths h with
      | Some n, Some w, Some h => Some (mkRow url name n w h)
      | _, _, _ => None
      end
  | _ => None
  end.
Definition read_table (s : signs) (t : text) : option (list row) := match read_html t with Some l => all_of (read_row s) l | None => None end.

(** * Order of a dictionary by code points *)
Inductive dict_le : text -> text -> Prop :=
| dl_end b : dict_le [] b
| dl_less x y a b : (x < y)%N -> dict_le (x :: a) (y :: b)
| dl_same x a b : dict_le a b -> dict_le (x :: a) (x :: b).
