(** Independent vocabulary for C33-C40. *)
From Coq Require Import QArith.
From Verif Require Import Base LayoutModel CarpalxModel CarpalxSpec OptModel.
Close Scope Q_scope.
Open Scope list_scope.

(** * C36: annealing without a heap.  A journey starts in some state with some
    energy; [walk i n cur dm p hist fin] says that n steps numbered from i, with
    largest change [dm] so far and random numbers from [p] on, go through the
    accepted states [hist] and end in [fin].  A rejected mutation leaves no trace
    but in [dm] and [p]. *)
Section Walk.
  Context {nm : num}.
  Notation T := (carrier nm).
  Context {C M : Type}.
  Variable mutate : C -> M -> nat -> res (C * M * T * nat).
  Variable thr : nat -> T.
  Definition below (x y : T) : Prop := nltb x y = true.
  (** The mutation improves, or is small compared to the largest one so far. *)
  Definition accepts (i : nat) (d dm : T) : Prop :=
    below d (nofZ 0) \/ below (if nis0 dm then nofZ 1 else ndiv (nabs d) dm) (thr i).
  Inductive walk : nat -> nat -> C * M * T -> T -> nat -> list (C * M * T) -> C * M * T -> Prop :=
    | walk_end i cur dm p : walk i 0 cur dm p [] cur
    | walk_accept i n c m e dm p c' m' d p' hist fin :
        mutate c m p = Ok (c', m', d, p') ->
        accepts i d (nmax_py (nabs d) dm) ->
        walk (S i) n (c', m', nadd e d) (nmax_py (nabs d) dm) p' hist fin ->
        walk i (S n) (c, m, e) dm p ((c', m', nadd e d) :: hist) fin
    | walk_reject i n c m e dm p c' m' d p' hist fin :
        mutate c m p = Ok (c', m', d, p') ->
        ~ accepts i d (nmax_py (nabs d) dm) ->
        walk (S i) n (c, m, e) (nmax_py (nabs d) dm) p' hist fin ->
        walk i (S n) (c, m, e) dm p hist fin.
  (** What a reference points to *)
  Definition holds (h : heap (C:=C) (M:=M)) (r : ref) (c : C) (m : M) : Prop :=
    nth_error (hc h) (fst r) = Some c /\ nth_error (hm h) (snd r) = Some m.
End Walk.
(** Comparison is a strict order (also of floating point numbers with NaN). *)
Definition strict (nm : num) : Prop :=
  (forall x : nm, nltb x x = false) /\
  (forall x y z : nm, nltb x y = true -> nltb y z = true -> nltb x z = true).

(** * C33, C34, C37 *)
(** Same keys in the same order, same targets, each as often as before. *)
Definition rearranged (bm bm' : bmap) : Prop :=
  dkeys bm' = dkeys bm /\ Permutation (dvals bm') (dvals bm).
(** Every key is the target of exactly one key. *)
Definition one_to_one (bm : bmap) : Prop := dict_wf bm /\ Permutation (dkeys bm) (dvals bm).
Definition goes (bm : bmap) (k t : key) : Prop := dget bm k = Some t.
(** All keys of a layer have targets on this layer. *)
Definition stays (bm : bmap) (i : nat) : Prop := forall k t, fst k = i -> goes bm k t -> fst t = i.
Notation pin := (Z * option string)%type.
Definition pinned (pins : list pin) (k : key) : Prop := In (Z.of_nat (fst k), Some (snd k)) pins.
Definition pinned_layer (pins : list pin) (i : nat) : Prop := In (Z.of_nat i, None) pins.
(** A swap the pins allow. *)
Definition swappable (pins : list pin) (bm : bmap) (a b : key) : Prop :=
  a <> b /\ ~ pinned pins a /\ ~ pinned pins b /\
  exists ta tb, goes bm a ta /\ goes bm b tb /\
    (pinned_layer pins (fst a) -> fst tb = fst a) /\
    (pinned_layer pins (fst b) -> fst ta = fst b).

(** * C35: the effort of the text typed with a button map: the weighted mean over
    all triads, each with every combination replaced. *)
Definition moved (L : layout) (bm : bmap) (tv tv' : triad * Q) : Prop :=
  Forall2 (fun c c' => mapButton L bm c = Ok c') (fst tv) (fst tv') /\ snd tv' = snd tv.
Definition costs (L : layout) (ts : list (triad * Q)) (m : model Qnum) (bm : bmap) (e : Q) : Prop :=
  exists l, Forall2 (moved L bm) ts l /\
    Forall (fun tv => scoreQ m (fst tv) <> None) l /\ (e == mean scoreQ m l)%Q.

(** * C38: what a layout says about a key *)
Definition says (ls : list layer) (k : key) (v : cell) : Prop :=
  exists l, nth_error ls (fst k) = Some l /\ dget (llayout l) (snd k) = Some v.
(** Where a key's content goes: unmapped keys stay. *)
Inductive sent (bm : bmap) : key -> key -> Prop :=
  | sent_mapped k t : goes bm k t -> sent bm k t
  | sent_stays k : ~ In k (dkeys bm) -> sent bm k k.

(** * C40: concatenation with separators *)
Fixpoint join (c : N) (ps : list text) : text :=
  match ps with [] => [] | [p] => p | p :: ps' => p ++ c :: join c ps' end.

(** The layout [ls'] has the same layers with the same modifiers, and each key of
    [kb] moved to where the map sends it. *)
Definition relabelled (kb : list string) (bm : bmap) (ls ls' : list layer) : Prop :=
  map lmods ls' = map lmods ls /\
  forall x v, says ls' x v <-> exists k, In (snd k) kb /\ sent bm k x /\ says ls k v.
(** A file that is read back *)
Definition reread (out : list layer_data) : list layer := glayers (generic_deserialize (mkGD "" out)).

(** Two keys exchange their places. *)
Definition exchanged (bm bm' : bmap) : Prop := exists a b ta tb, a <> b /\ goes bm a ta /\ goes bm b tb /\ goes bm' a tb /\ goes bm' b ta /\
  forall k, k <> a -> k <> b -> dget bm' k = dget bm k.
Inductive exchanges : nat -> bmap -> bmap -> Prop :=
  | ex_none bm : exchanges 0 bm bm
  | ex_more n bm1 bm2 bm3 : exchanged bm1 bm2 -> exchanges n bm2 bm3 -> exchanges (S n) bm1 bm3.
