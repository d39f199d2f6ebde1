(** C81: limit and first on arbitrary, possibly endless or failing iterators *)
From Verif Require Import Base UtilModel.
Open Scope list_scope.

(** Calling [next] again and again yields these items, and then the iterator is in
    that state. *)
Inductive draws {S A} (nxt : S -> res (option A) * S) : S -> list A -> S -> Prop :=
  | draws_none s : draws nxt s [] s
  | draws_more s x s1 xs s2 : nxt s = (Ok (Some x), s1) -> draws nxt s1 xs s2 -> draws nxt s (x :: xs) s2.
(** It yields these items and ends, or raises. *)
Definition ends {S A} (nxt : S -> res (option A) * S) (s : S) (xs : list A) (e : option exn) (s' : S) : Prop :=
  exists s1, draws nxt s xs s1 /\ nxt s1 = (match e with None => Ok None | Some e => Raise e end, s').

Section C81.
  Context {S A : Type}.
  Variable nxt : S -> res (option A) * S.
  Notation lnext := (limit_next nxt).
  (** Items are drawn only when they are asked for. *)
  Theorem C81_lazy s n xs ls : draws lnext (limit s n) xs ls <->
    exists s', ls = (Some (Z.to_nat n - List.length xs), s') /\ List.length xs <= Z.to_nat n /\ draws nxt s xs s'.
  Proof.
    unfold limit. generalize (Z.to_nat n) as k. clear n. intros k. split.
    - intros D. remember (Some k, s) as l0 eqn:E. revert k s E. induction D as [l0|l0 x l1 xs l2 Hn D IH]; intros k s ->.
      + exists s. rewrite Nat.sub_0_r. split; [reflexivity|]. split; [cbn; lia|constructor].
      + unfold limit_next in Hn. cbn [fst snd] in Hn. destruct k as [|k]; [discriminate Hn|].
        destruct (nxt s) as [[[y|]|e] s1] eqn:Es; try discriminate Hn. injection Hn as <- <-.
        destruct (IH k s1 eq_refl) as (s' & -> & Hl & D'). exists s'. cbn [List.length]. split; [reflexivity|]. split; [lia|]. econstructor; [exact Es|exact D'].
    - intros (s' & -> & Hl & D). revert k Hl. induction D as [s|s x s1 xs s2 Hn D IH]; intros k Hl; cbn [List.length] in *.
      + rewrite Nat.sub_0_r. constructor.
      + destruct k as [|k]; [lia|]. econstructor; [unfold limit_next; cbn [fst snd]; rewrite Hn; reflexivity|]. apply IH. lia.
  Qed.
  (** Exactly n items, and never one more is drawn, or all there are, with the
      exception that ended them. *)
  Theorem C81_ends s n xs e ls : ends lnext (limit s n) xs e ls <->
    exists s', ls = (None, s') /\
      (List.length xs = Z.to_nat n /\ e = None /\ draws nxt s xs s' \/ List.length xs < Z.to_nat n /\ ends nxt s xs e s').
  Proof.
    unfold ends. split.
    - intros (l1 & D & E). apply C81_lazy in D as (s1 & -> & Hl & D). unfold limit_next in E. cbn [fst snd] in E.
      destruct (Z.to_nat n - List.length xs) as [|k] eqn:K.
      + injection E as E <-. exists s1. split; [reflexivity|]. left. split; [lia|]. split; [destruct e; [discriminate E|reflexivity]|exact D].
      + destruct (nxt s1) as [[[y|]|e'] s2] eqn:Es; injection E as E <-.
        * destruct e; discriminate E.
        * exists s2. split; [reflexivity|]. right. split; [lia|]. exists s1. split; [exact D|]. rewrite Es. destruct e; [discriminate E|reflexivity].
        * exists s2. split; [reflexivity|]. right. split; [lia|]. exists s1. split; [exact D|]. rewrite Es. destruct e; [injection E as ->; reflexivity|discriminate E].
    - intros (s' & -> & [(Hl & -> & D)|(Hl & s1 & D & E)]).
      + exists (Some 0, s'). split; [|reflexivity]. apply C81_lazy. exists s'. rewrite Hl, Nat.sub_diag. split; [reflexivity|]. split; [lia|exact D].
      + exists (Some (Z.to_nat n - List.length xs), s1). split; [apply C81_lazy; exists s1; split; [reflexivity|split; [lia|exact D]]|].
        unfold limit_next. cbn [fst snd]. destruct (Z.to_nat n - List.length xs) as [|k] eqn:K; [lia|]. rewrite E. destruct e; reflexivity.
  Qed.
  (** It always ends, whatever the iterator. *)
  Theorem C81_total s n : exists xs e ls, ends lnext (limit s n) xs e ls.
  Proof.
    unfold limit. generalize (Z.to_nat n) as k. clear n. intros k. revert s. induction k as [|k IH]; intros s.
    - exists [], None, (None, s). exists (Some 0, s). split; [constructor|reflexivity].
    - destruct (nxt s) as [[[x|]|e] s1] eqn:Es.
      + destruct (IH s1) as (xs & e & ls & l1 & D & E). exists (x :: xs), e, ls, l1. split; [|exact E]. econstructor; [|exact D].
        unfold limit_next. cbn [fst snd]. rewrite Es. reflexivity.
      + exists [], None, (None, s1). exists (Some (Datatypes.S k), s). split; [constructor|]. unfold limit_next. cbn [fst snd]. rewrite Es. reflexivity.
      + exists [], (Some e), (None, s1). exists (Some (Datatypes.S k), s). split; [constructor|]. unfold limit_next. cbn [fst snd]. rewrite Es. reflexivity.
  Qed.
  Theorem C81_first s : (forall x s', first nxt s = (Ok x, s') <-> draws nxt s [x] s') /\
    (forall s', first nxt s = (Raise StopIteration, s') <-> ends nxt s [] None s' \/ ends nxt s [] (Some StopIteration) s') /\
    (forall e s', e <> StopIteration -> first nxt s = (Raise e, s') <-> ends nxt s [] (Some e) s').
  Proof.
    unfold first, ends. destruct (nxt s) as [[[y|]|e0] s1] eqn:Es; split; [|split| |split| |split].
    all: try (intros x s'; split; [intros [= <- <-]; econstructor; [exact Es|constructor]|
           intros D; inversion D as [|? ? ? ? ? Hn D']; subst; inversion D'; subst; congruence]).
    all: try (intros x s'; split; [intros [=]|intros D; inversion D as [|? ? ? ? ? Hn D']; subst; congruence]).
    all: try (intros s'; split; [intros [=]|]; intros [(s2 & D & E)|(s2 & D & E)]; inversion D; subst; congruence).
    all: try (intros e s' Ne; split; [intros [=]; congruence|intros (s2 & D & E); inversion D; subst; congruence]).
    - intros s'. split; [intros [= <-]; left; exists s; split; [constructor|exact Es]|]. intros [(s2 & D & E)|(s2 & D & E)]; inversion D; subst; congruence.
    - intros s'. split; [intros [= -> <-]; right; exists s; split; [constructor|exact Es]|]. intros [(s2 & D & E)|(s2 & D & E)]; inversion D; subst; congruence.
    - intros e s' Ne. split; [intros [= -> <-]; exists s; split; [constructor|exact Es]|intros (s2 & D & E); inversion D; subst; congruence].
  Qed.
End C81.
(** On lists: the beginning, leaving the rest *)
Theorem C81_list {A} (l : list A) n : ends (limit_next list_next) (limit l n) (limit_list l (Z.to_nat n)) None (None, skipn (Z.to_nat n) l).
Proof.
  assert (F : forall (l : list A) k, limit_list l k = firstn k l) by (clear; intros l; induction l as [|x l IH]; intros [|k]; cbn; congruence). rewrite F.
  assert (D : forall (l : list A) k, draws list_next l (firstn k l) (skipn k l)).
  { clear. intros l. induction l as [|x l IH]; intros [|k]; try constructor. econstructor; [reflexivity|apply IH]. }
  apply C81_ends. exists (skipn (Z.to_nat n) l). split; [reflexivity|]. destruct (le_lt_dec (Z.to_nat n) (List.length l)) as [H|H].
  - left. rewrite firstn_length. split; [lia|]. split; [reflexivity|apply D].
  - right. rewrite firstn_length. split; [lia|]. exists (skipn (Z.to_nat n) l). split; [apply D|]. rewrite skipn_all2 by lia. reflexivity.
Qed.
(** An endless iterator: the first three natural numbers *)
Example C81_example : ends (limit_next (fun n : nat => (Ok (Some n), S n))) (limit 0 3) [0; 1; 2] None (None, 3).
Proof. exists (Some 0, 3). split; [|reflexivity]. repeat (econstructor; [reflexivity|]). constructor. Qed.
Print Assumptions C81_lazy.
Print Assumptions C81_ends.
Print Assumptions C81_total.
Print Assumptions C81_first.
Print Assumptions C81_list.
