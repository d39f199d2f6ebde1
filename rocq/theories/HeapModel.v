(** stats.py:34-48 once more, this time with object identity: dictionaries live
    in a heap and values may be references to other dictionaries.  Needed for
    the aliasing properties (C23) and to justify the typed version used in
    StatsModel.v (C22). *)
From Verif Require Import Base.
Open Scope list_scope.

Section Heap.
  Context {K : Type} `{EqDec K}.
  (** A value: number, reference to a dict, or a list (never mutated here). *)
  Inductive val := VInt (z : Z) | VRef (a : nat) | VList.
  Definition heap := list (nat * list (K * val)).

  (** stats.py:43-48: an existing key; [rec] is the recursive call.
      [op] is [operator.add] in all calls; adding a number to a dict or list
      raises TypeError. *)
  Definition updExisting (rec : heap -> nat -> nat -> res heap) (h : heap) (a : nat) (ad : list (K * val)) (k : K) (x v : val) : res heap :=
    match v with
    | VRef r => match x with VRef ra => rec h ra r | _ => Raise AssertionError end
    | VList => Raise AssertionError
    | VInt z => match x with VInt y => Ok (dset h a (dset ad k (VInt (y + z)))) | _ => Raise TypeError end
    end.
  (** stats.py:37-39 *)
  Definition updItem (rec : heap -> nat -> nat -> res heap) (a : nat) (h : heap) (kv : K * val) : res heap :=
    do ad <- of_opt AttributeError (dget h a);
    match dget ad (fst kv) with
    | None => Ok (dset h a (dset ad (fst kv) (snd kv)))
    | Some x => updExisting rec h a ad (fst kv) x (snd kv)
    end.
  (** stats.py:34-48.  [fuel] bounds the nesting depth.  [b.items()] is read once
      at the start; this differs from Python only if the loop changes [b]
      itself, i.e. if b is reachable from a. *)
  Fixpoint updHeap (fuel : nat) (h : heap) (a b : nat) : res heap :=
    match fuel with
    | O => Raise OutOfFuel
    | S fuel' => do bd <- of_opt AttributeError (dget h b); foldM (updItem (updHeap fuel') a) bd h
    end.
End Heap.
Arguments val : clear implicits.
