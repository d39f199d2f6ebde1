(** Base 64 (RFC 4648), data URLs (RFC 2397) and @font-face rules (CSS Fonts 3), as far as needed. *)
From Coq Require Import QArith Ascii.
From Verif Require Import Base LayoutModel KlcModel FilesSpec XmlSpec.
Close Scope Q_scope.
Open Scope string_scope.
Open Scope list_scope.

(** * Base 64 *)
Definition alphabet : text := lit "ABCDEFGHIJKLMNOPQRSTUVWXYZabcdefghijklmnopqrstuvwxyz0123456789+/".
Fixpoint index (c : N) (l : text) : option nat :=
  match l with [] => None | d :: l' => if (c =? d)%N then Some 0 else option_map S (index c l') end.
(** The [k] lowest bits, most significant first *)
Fixpoint bits (k : nat) (n : N) : list bool := match k with O => [] | S k' => N.testbit n (N.of_nat k') :: bits k' n end.
Definition of_bits (l : list bool) : N := fold_left (fun n (b : bool) => (2 * n + (if b then 1 else 0))%N) l 0%N.
(** Octets, and fewer than eight bits that are left *)
Fixpoint octets (l : list bool) : list N * list bool :=
  match l with
  | a :: b :: c :: d :: e :: f :: g :: h :: l' => let (o, r) := octets l' in (of_bits [a; b; c; d; e; f; g; h] :: o, r)
  | _ => ([], l)
  end.
Definition is_pad (c : N) : bool := (c =? 61)%N.
(** Padding makes the length a multiple of four; bits not needed are zero. *)
Definition b64decode (t : text) : option (list N) :=
  let (body, pad) := span (fun c => negb (is_pad c)) t in
  match all_of (fun c => index c alphabet) body with
  | Some vs =>
      let (o, r) := octets (flat_map (fun v => bits 6 (N.of_nat v)) vs) in
      if forallb is_pad pad && (List.length pad <? 3)%nat && (List.length t mod 4 =? 0)%nat && (List.length r =? 2 * List.length pad)%nat && forallb negb r then Some o else None
  | None => None
  end.

(** * Data URLs *)
Definition is_comma' (c : N) : bool := (c =? 44)%N.
Definition is_semicolon (c : N) : bool := (c =? 59)%N.
(** Type and contents, if in base 64 *)
Definition data_url (t : text) : option (text * list N) :=
  match after (lit "data:") t with
  | Some t => match cut is_comma' t with
              | (head, Some d) => match split (S (List.length head)) is_semicolon head with
                                  | ty :: ps => if eqb (last ps []) (lit "base64") then option_map (pair ty) (b64decode d) else None
                                  | [] => None
                                  end
              | _ => None
              end
  | None => None
  end.

(** * Declarations *)
(** A value ends at a semicolon outside of quotes; no backslashes, line breaks in quotes or nested blocks. *)
Fixpoint css_value (q : option N) (t : text) : option (text * text) :=
  match t with
  | [] => None
  | c :: t' =>
      if (c =? 92)%N || (c =? 123)%N || (c =? 125)%N then None
      else match q with
           | Some d => if (c =? 10)%N then None else match css_value (if (c =? d)%N then None else q) t' with Some (v, r) => Some (c :: v, r) | None => None end
           | None => if (c =? 59)%N then Some ([], t') else match css_value (if is_q c then Some c else None) t' with Some (v, r) => Some (c :: v, r) | None => None end
           end
  end.
Definition css_name (c : N) : bool := (((97 <=? c) && (c <=? 122)) || (c =? 45))%N.
Fixpoint css_decls (fuel : nat) (t : text) : option (list (text * text) * text) :=
  match fuel with
  | O => None
  | S f =>
      match skip t with
      | [] => None
      | c :: r => if (c =? 125)%N then Some ([], r)
                  else match span css_name (c :: r) with
                       | ((_ :: _) as n, u) =>
                           match after (lit ":") (skip u) with
                           | Some v => match css_value None (skip v) with
                                       | Some (v, r) => match css_decls f r with Some (l, r) => Some ((n, v) :: l, r) | None => None end
                                       | None => None end
                           | None => None end
                       | _ => None end
      end
  end.
(** 'text' or "text" *)
Definition quoted (t : text) : option (text * text) :=
  match t with
  | q :: r => if is_q q then match cut (fun c => (c =? q)%N) r with (s, Some r) => Some (s, r) | _ => None end else None
  | [] => None
  end.
Definition whole (o : option (text * text)) : option text := match o with Some (s, []) => Some s | _ => None end.
(** url("...") format('...') *)
Definition source (t : text) : option (text * text) :=
  match after (lit "url(") t with
  | Some t => match quoted t with
              | Some (u, t) => match after (lit ") format(") t with
                               | Some t => match quoted t with Some (f, r) => if eqb r (lit ")") then Some (u, f) else None | None => None end
                               | None => None end
              | None => None end
  | None => None
  end.

(** * Fonts *)
Record face := mkFace { f_family : text; f_style : text; f_weight : N; f_format : text; f_type : text; f_bytes : list N }.
Definition face_of (d : list (text * text)) : option face :=
  match dget d (lit "font-family"), dget d (lit "font-style"), dget d (lit "font-weight"), dget d (lit "src") with
  | Some fa, Some st, Some w, Some s =>
      match whole (quoted fa), number 0 w, source s with
      | Some fa, Some w, Some (u, fm) => match data_url u with Some (ty, b) => Some (mkFace fa st w fm ty b) | None => None end
      | _, _, _ => None
      end
  | _, _, _, _ => None
  end.
(** The fonts a style sheet begins with, and the rest *)
Fixpoint faces (fuel : nat) (t : text) : option (list face * text) :=
  match fuel with
  | O => None
  | S f =>
      match after (lit "@font-face") (skip t) with
      | Some r =>
          match after (lit "{") (skip r) with
          | Some r => match css_decls (S (List.length r)) r with
                      | Some (d, r) => match face_of d, faces f r with Some x, Some (l, r) => Some (x :: l, r) | _, _ => None end
                      | None => None end
          | None => None end
      | None => Some ([], skip t)
      end
  end.
Definition sheet_faces (t : text) : option (list face * text) := faces (S (List.length t)) t.
