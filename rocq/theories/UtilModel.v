(** Model of first and limit, lulua/util.py:27-36, over arbitrary iterators. *)
From Verif Require Import Base.
Open Scope list_scope.

Section Iter.
  (** An iterator with state [S]: [nxt] is [next], [Ok None] is StopIteration. *)
  Context {S A : Type}.
  Variable nxt : S -> res (option A) * S.
  (** util.py:27 *)
  Definition first (s : S) : res A * S :=
    match nxt s with
    | (Ok (Some x), s') => (Ok x, s')
    | (Ok None, s') => (Raise StopIteration, s')
    | (Raise e, s') => (Raise e, s')
    end.
  (** util.py:29-36: limit is itself an iterator.  Its state is the iterator and the
      number of items that range (n) still has; [None] when it has ended. *)
  Definition limit_state := (option nat * S)%type.
  Definition limit (s : S) (n : Z) : limit_state := (Some (Z.to_nat n), s).
  Definition limit_next (ls : limit_state) : res (option A) * limit_state :=
    match fst ls with
    | Some (Datatypes.S k) =>
        match nxt (snd ls) with
        | (Ok (Some x), s') => (Ok (Some x), (Some k, s'))
        | (Ok None, s') => (Ok None, (None, s'))
        | (Raise e, s') => (Raise e, (None, s'))
        end
    | _ => (Ok None, (None, snd ls))
    end.
End Iter.
(** [iter (l)] for a list *)
Definition list_next {A} (l : list A) : res (option A) * list A :=
  match l with x :: l' => (Ok (Some x), l') | [] => (Ok None, []) end.
(** All items of [limit (l, n)] for a list, see C81_list *)
Fixpoint limit_list {A} (l : list A) (n : nat) : list A :=
  match n, l with S n', x :: l' => x :: limit_list l' n' | _, _ => [] end.
