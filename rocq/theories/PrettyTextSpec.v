(** How a user reads a line of a table: columns from the right, since a label may
    contain blanks. *)
From Coq Require Import QArith Ascii.
From Verif Require Import Base LayoutModel KlcModel FilesSpec WidgetSpec.
Close Scope Q_scope.
Open Scope string_scope.
Open Scope list_scope.

Fixpoint drop (t : text) : text := match t with c :: t' => if is_blank c then drop t' else t | [] => [] end.
(** Without blanks at the end *)
Definition strip_end (t : text) : text := rev (drop (rev t)).
(** The last column, and what is before it *)
Definition last_field (t : text) : text * text :=
  let '(f, r) := cut is_blank (drop (rev t)) in (rev match r with Some r => r | None => [] end, rev f).
(** Digits only, at least one *)
Definition whole (t : text) : option N := match t with [] => None | _ => number 0 t end.
(** A percentage, in units of 10^-k percent *)
Definition percent (k : nat) (t : text) : option Z := match rev t with c :: r => if (c =? 37)%N then decimal k (rev r) else None | [] => None end.

(** label, count *)
Definition read_count (t : text) : option (text * N) :=
  let '(r, v) := last_field t in match whole v with Some n => Some (strip_end r, n) | None => None end.
(** label, count, percentage *)
Definition read_row (k : nat) (t : text) : option (text * N * Z) :=
  let '(r, p) := last_field t in match read_count r, percent k p with Some x, Some z => Some (x, z) | _, _ => None end.
(** label, percentage without its sign, count *)
Definition read_word (k : nat) (t : text) : option (text * Z * N) :=
  match read_count t with
  | Some (r, n) => let '(l, p) := last_field r in match decimal k p with Some z => Some (strip_end l, z, n) | None => None end
  | None => None
  end.
(** A label that starts with a number, a point and a blank *)
Definition read_rank (t : text) : option (N * text) :=
  match cut (fun c => c =? 46)%N (drop t) with
  | (r, Some (c :: t)) => match whole r with Some n => if is_blank c then Some (n, t) else None | None => None end
  | _ => None
  end.
