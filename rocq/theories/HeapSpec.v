(** Vocabulary for aliasing. *)
From Verif Require Import Base HeapModel.
Open Scope list_scope.

Section Spec.
  Context {K : Type} `{EqDec K}.
  (** Entry [k] of object [a]. *)
  Definition entry (h : heap (K := K)) (a : nat) (k : K) : option val :=
    match dget h a with Some d => dget d k | None => None end.
  (** Objects reachable from [a] by following references. *)
  Inductive reach (h : heap (K := K)) (a : nat) : nat -> Prop :=
    | reach_refl : reach h a a
    | reach_step x k r : reach h a x -> entry h x k = Some (VRef r) -> reach h a r.
  (** Every nested dictionary of [b] exists in [a] under the same key, up to
      nesting depth [n]. *)
  Fixpoint nested_present (n : nat) (h : heap (K := K)) (a b : nat) : Prop :=
    match n with
    | O => True
    | S n' => forall k r, entry h b k = Some (VRef r) ->
                exists ra, entry h a k = Some (VRef ra) /\ nested_present n' h ra r
    end.
  (** Dictionaries have distinct keys; no list values below [b]. *)
  Definition heap_wf (h : heap (K := K)) : Prop := forall a d, dget h a = Some d -> dict_wf d.
  Definition numeric (h : heap (K := K)) (b : nat) : Prop := forall x k, reach h b x -> entry h x k <> Some VList.
  Definition disjoint (h : heap (K := K)) (a b : nat) : Prop := forall x, reach h a x -> ~ reach h b x.

  (** Object [a] is a counter dictionary with contents [c]. *)
  Definition is_counter (h : heap (K := K)) (a : nat) (c : list (K * Z)) : Prop :=
    dget h a = Some (map (fun kz => (fst kz, VInt (snd kz))) c).
  (** Object [a] is a dictionary of counter dictionaries with contents [c], stored
      at the addresses [addrs]. *)
  Definition is_nested (h : heap (K := K)) (a : nat) (addrs : list nat) (c : list (K * list (K * Z))) : Prop :=
    dget h a = Some (combine (map fst c) (map VRef addrs)) /\
    Forall2 (fun r kc => is_counter h r (snd kc)) addrs c.
End Spec.
