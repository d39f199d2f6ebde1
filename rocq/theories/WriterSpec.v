(** Vocabulary for the properties of the writer. *)
From Verif Require Import Base LayoutModel LayoutSpec WriterModel.
Open Scope list_scope.

(** The characters an event accounts for. *)
Definition ev_text (e : event) : text := match e with EMatch t _ => t | ESkip c => [c] end.

(** Greedy longest-match segmentation of a whole text. *)
Inductive token := TMatch (t : text) | TSkip (c : N).
Definition ev_token (e : event) : token := match e with EMatch t _ => TMatch t | ESkip c => TSkip c end.
Inductive greedy (ls : list layer) : text -> list token -> Prop :=
  | g_nil : greedy ls [] []
  | g_match t r toks : t <> [] -> longest_assigned ls (t ++ r) t -> greedy ls r toks -> greedy ls (t ++ r) (TMatch t :: toks)
  | g_skip c r toks : unmapped ls (c :: r) -> greedy ls r toks -> greedy ls (c :: r) (TSkip c :: toks).

(** Every button the layout uses has a finger. *)
Definition fingered (fm : list (string * (direction * finger))) (ls : list layer) : Prop :=
  incl (mentioned ls) (dkeys fm).
(** Every button of a combination has a finger. *)
Definition comb_fingered (fm : list (string * (direction * finger))) (c : comb) : Prop :=
  incl (elems (cmod c)) (dkeys fm) /\ incl (elems (cbtn c)) (dkeys fm).

(** What any text file guarantees about [read]: it returns at most what was
    asked for, and at least one character before the end. *)
Definition file_like {R} (read : R -> nat -> text * R) (rest : R -> text) : Prop :=
  forall r n, exists k, k <= n /\ (0 < n -> rest r <> [] -> 0 < k) /\
    fst (read r n) = firstn k (rest r) /\ rest (snd (read r n)) = skipn k (rest r).
(** ... and a file that always fills the request. *)
Definition full_reads {R} (read : R -> nat -> text * R) (rest : R -> text) : Prop :=
  forall r n, fst (read r n) = firstn n (rest r) /\ rest (snd (read r n)) = skipn n (rest r).

(** Hands: +1 left, -1 right. *)
Definition side (fm : list (string * (direction * finger))) (b : string) : Z :=
  match dget fm b with Some (LEFT, _) => 1 | Some (RIGHT, _) => -1 | None => 0 end%Z.
Definition bal (fm : list (string * (direction * finger))) (bs : list string) : Z :=
  fold_right (fun b n => side fm b + n)%Z 0%Z bs.

(** The documented criteria, as a triple compared lexicographically: number of
    buttons, imbalance of the combination, imbalance with respect to the
    previous one. *)
Definition criteria fm (prev : option comb) (c : comb) : Z * Z * Z :=
  (Z.of_nat (length (elems (cmod c)) + length (elems (cbtn c))),
   Z.abs (bal fm (elems (cmod c) ++ elems (cbtn c))),
   match prev with
   | None => 1%Z
   | Some p => Z.abs (bal fm ((if Nat.eqb (length (elems (cmod p))) 0 then elems (cbtn p) else elems (cmod p)) ++ elems (cbtn c)))
   end).
Definition lex_lt (a b : Z * Z * Z) : Prop :=
  let '(a1, a2, a3) := a in let '(b1, b2, b3) := b in
  (a1 < b1 \/ a1 = b1 /\ (a2 < b2 \/ a2 = b2 /\ a3 < b3))%Z.

(** Pressing one button; one modifier plus one button. *)
Definition press1 (b : string) : comb := mkComb (frozenset []) (frozenset [b]).
Definition press2 (m b : string) : comb := mkComb (frozenset [m]) (frozenset [b]).
Definition on_hand (fm : list (string * (direction * finger))) (b : string) (d : direction) : Prop :=
  exists f, dget fm b = Some (d, f).
(** Which hand a previous combination counts for: its modifiers if it has any,
    its buttons otherwise (positive: left). *)
Definition lean fm (p : comb) : Z :=
  bal fm (if Nat.eqb (length (elems (cmod p))) 0 then elems (cbtn p) else elems (cmod p)).
