(** Vocabulary for the tools working on recorded statistics, C55-C60. *)
From Coq Require Import QArith.
From Verif Require Import Base LayoutModel StatsSpec CarpalxModel CarpalxSpec.
Close Scope Q_scope.
Open Scope list_scope.

(** A stable sorting of [l]. *)
Definition sorting {A} (le : A -> A -> bool) (l l' : list A) : Prop :=
  Permutation l' l /\ StronglySorted (fun a b => le a b = true) l' /\
  forall x, filter (fun y => le x y && le y x) l' = filter (fun y => le x y && le y x) l.

(** How often something with property [P] was counted. *)
Definition amount {K} (P : K -> bool) (d : list (K * Z)) : Z := sumZ (fun kv => if P (fst kv) then snd kv else 0%Z) d.
Definition all_counts {K} (P : Z -> Prop) (d : list (K * Z)) : Prop := Forall (fun kv => P (snd kv)) d.

(** The combination [c] types [t]. *)
Definition types (L : layout) (t : text) (c : comb) : bool :=
  match getText L c with Ok (CText t') => if list_eq_dec N.eq_dec t t' then true else false | _ => false end.
(** [c] types something starting with a letter. *)
Definition types_letter (isLo : N -> bool) (L : layout) (c : comb) : bool :=
  match getText L c with Ok (CText (x :: _)) => isLo x | _ => false end.

(** The triad [t] types the texts [k]. *)
Fixpoint types_triad (L : layout) (k : list cell) (t : triad) : bool :=
  match k, t with
  | [], [] => true
  | CText x :: k', c :: t' => types L x c && types_triad L k' t'
  | COther :: k', c :: t' => match getText L c with Ok COther => types_triad L k' t' | _ => false end
  | _, _ => false
  end.
(** The triads typing [k], with their weights. *)
Definition ledger_of (L : layout) (k : list cell) (ts : list (triad * Z)) : ledger :=
  map (fun tv => (fst tv, inject_Z (snd tv))) (filter (fun tv => types_triad L k (fst tv)) ts).

(** Weight and effort of an initial part of a list of (weight, effort per unit of weight). *)
Definition pweight (l : list (Z * Q)) : Z := sumZ fst l.
Definition peffort (l : list (Z * Q)) : Q := qsum (fun d => (snd d * inject_Z (fst d))%Q) l.

(** 1.15^k *)
Definition base115 (k : Z) : Q := Qpower (23 # 20) k.

(** Hand and finger pressing a button. *)
Definition by_hand (fm : list (string * (direction * finger))) (h : direction) (b : string) : bool :=
  match dget fm b with Some (h', _) => if eq_dec h h' then true else false | None => false end.
Definition by_finger (fm : list (string * (direction * finger))) (hf : direction * finger) (b : string) : bool :=
  match dget fm b with Some hf' => if eq_dec hf hf' then true else false | None => false end.
(** Combinations as the writer uses them: a single button, maybe modified. *)
Definition one_button (c : comb) : Prop := exists b, cbtn c = frozenset [b].
Definition mods_nodup (ls : list layer) : Prop := Forall (fun l => NoDup (lmods l)) ls.
