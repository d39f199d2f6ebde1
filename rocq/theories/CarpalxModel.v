(** Model of lulua/carpalx.py, generic in the number format.  The code computes
    with Python floats; [Qnum] is exact arithmetic, [Fnum] IEEE-754 binary64. *)
From Coq Require Import QArith SpecFloat.
From Verif Require Import Base LayoutModel.
Close Scope Q_scope.
Open Scope string_scope.
Open Scope list_scope.

(** A number format: the operations used by carpalx.py.  [nlit n d] is the
    decimal literal n/d, [nofZ] the conversion of an int operand. *)
Record num := mkNum {
  carrier :> Type;
  nadd : carrier -> carrier -> carrier; nsub : carrier -> carrier -> carrier;
  nmul : carrier -> carrier -> carrier; ndiv : carrier -> carrier -> carrier;
  nofZ : Z -> carrier; nlit : Z -> positive -> carrier;
  nltb : carrier -> carrier -> bool; nis0 : carrier -> bool }.
Arguments nadd {n}. Arguments nsub {n}. Arguments nmul {n}. Arguments ndiv {n}.
Arguments nofZ {n}. Arguments nlit {n}. Arguments nltb {n}. Arguments nis0 {n}.

Definition Qnum : num := {|
  carrier := Q; nadd := Qplus; nsub := Qminus; nmul := Qmult; ndiv := Qdiv;
  nofZ := inject_Z; nlit := Qmake;
  nltb := fun x y => negb (Qle_bool y x); nis0 := fun x => Qeq_bool x 0 |}.

(** Correctly rounded: numerator and denominator of the literals used are
    exact, so their quotient is the float nearest to the decimal. *)
Definition f64_ofZ (z : Z) : spec_float := binary_normalize 53 1024 z 0 false.
Definition Fnum : num := {|
  carrier := spec_float; nadd := SFadd 53 1024; nsub := SFsub 53 1024;
  nmul := SFmul 53 1024; ndiv := SFdiv 53 1024;
  nofZ := f64_ofZ; nlit := fun n d => SFdiv 53 1024 (f64_ofZ n) (f64_ofZ (Zpos d));
  nltb := SFltb; nis0 := fun x => SFeqb x (f64_ofZ 0) |}.

Definition triad := list comb.

(** carpalx.py:43-44: ModelParams *)
Record params (nm : num) := mkParams {
  kB : nm; kP : nm; kS : nm;
  k1 : nm; k2 : nm; k3 : nm; kSim : nm;
  w0 : nm; wH : nm; wR : nm; wF : nm;
  pHand : list (direction * nm); pRow : list nm;
  pFinger : list (direction * list (finger * nm));
  fH : nm; fR : nm; fF : nm;
  baseline : list (string * nm) }.
Arguments kB {nm}. Arguments kP {nm}. Arguments kS {nm}.
Arguments k1 {nm}. Arguments k2 {nm}. Arguments k3 {nm}. Arguments kSim {nm}.
Arguments w0 {nm}. Arguments wH {nm}. Arguments wR {nm}. Arguments wF {nm}.
Arguments pHand {nm}. Arguments pRow {nm}. Arguments pFinger {nm}.
Arguments fH {nm}. Arguments fR {nm}. Arguments fF {nm}. Arguments baseline {nm}.

(** carpalx.py:291-301: _strokePathHand *)
Definition strokePathHand (h0 h1 h2 : direction) : Z :=
  let same := eqb h0 h1 && eqb h1 h2 in
  let alternating := eqb h0 h2 && negb (eqb h0 h1) in
  if alternating then 1 else if same then 2 else 0.

(** carpalx.py:303-334: _strokePathRow *)
Definition strokePathRow (r0 r1 r2 : Z) : res Z :=
  let d0 := (r0 - r1)%Z in let d1 := (r1 - r2)%Z in let d2 := (r0 - r2)%Z in
  if (d0 =? 0)%Z && (d1 =? 0)%Z then Ok 0%Z
  else if ((r0 =? r1)%Z && (r2 >? r1)%Z) || ((r1 >? r0)%Z && (r1 =? r2)%Z) then Ok 1%Z
  else if ((r0 =? r1)%Z && (r2 <? r1)%Z) || ((r1 <? r0)%Z && (r1 =? r2)%Z) then Ok 2%Z
  else if (Z.max (Z.abs d0) (Z.max (Z.abs d1) (Z.abs d2)) <=? 1)%Z then Ok 3%Z
  else if (d0 <? 0)%Z && (d1 <? 0)%Z then Ok 4%Z
  else if (d0 >? 0)%Z && (d1 >? 0)%Z then Ok 6%Z
  else if (Z.min d0 d1 <? -1)%Z then Ok 5%Z
  else if (Z.max d0 d1 >? 1)%Z then Ok 7%Z
  else Raise AssertionError.

(** carpalx.py:338: position of a finger, little finger of the left hand first *)
Definition finger_no (f : direction * finger) : Z :=
  match fst f with
  | LEFT => Z.of_N (finger_code (snd f))
  | RIGHT => 6 + (5 - Z.of_N (finger_code (snd f)))
  end%Z.

(** carpalx.py:336-368: _strokePathFinger.  [t0 t1 t2] are the buttons. *)
Definition strokePathFinger (g0 g1 g2 : direction * finger) (t0 t1 t2 : string) : res Z :=
  let f0 := finger_no g0 in let f1 := finger_no g1 in let f2 := finger_no g2 in
  let same := (f0 =? f1)%Z && (f1 =? f2)%Z in
  let allDifferent := negb (f0 =? f1)%Z && negb (f1 =? f2)%Z && negb (f0 =? f2)%Z in
  let someDifferent := negb same && negb allDifferent in
  let keyRepeat := eqb t0 t1 || eqb t1 t2 || eqb t0 t2 in
  let monotonic := ((f0 <=? f1)%Z && (f1 <=? f2)%Z) || ((f0 >=? f1)%Z && (f1 >=? f2)%Z) in
  if same then if keyRepeat then Ok 5%Z else Ok 7%Z
  else if ((f0 >? f2)%Z && (f2 >? f1)%Z) || ((f0 <? f2)%Z && (f2 <? f1)%Z) then Ok 2%Z
  else if allDifferent then if monotonic then Ok 0%Z else Ok 3%Z
  else if someDifferent then
    if monotonic then if keyRepeat then Ok 1%Z else Ok 6%Z else Ok 4%Z
  else Raise AssertionError.

(** itertools.product *)
Fixpoint product {A} (ls : list (list A)) : list (list A) :=
  match ls with
  | [] => [[]]
  | l :: ls' => flat_map (fun x => map (cons x) (product ls')) l
  end.

(** What a Carpalx object is constructed from: the parameters and, of the
    writer, its finger map, its keyboard's button-to-row table and the order in
    which it iterates the buttons of a combination (frozensets have none of
    their own). *)
Record model (nm : num) := mkModel {
  mparams : params nm;
  mfm : list (string * (direction * finger));
  mrows : list (string * nat);
  miter : comb -> list string }.
Arguments mparams {nm}. Arguments mfm {nm}. Arguments mrows {nm}. Arguments miter {nm}.

Section Carpalx.
  Context {nm : num}.
  Notation T := (carrier nm).

  (** carpalx.py:236-241: madd, on equally long tuples *)
  Fixpoint madd_from (s : T) (ab : list (T * T)) : T :=
    match ab with [] => s | (a, b) :: ab' => madd_from (nadd s (nmul a b)) ab' end.
  Definition madd (ab : list (T * T)) : T := madd_from (nofZ 0) ab.

  (** Python's [sum]: from the left, starting with 0 *)
  Definition nsum_py (l : list T) : T := fold_left nadd l (nofZ 0).
  (** Python's [min]: the first of the smallest elements *)
  Definition min_py (l : list T) : res T :=
    match l with
    | [] => Raise ValueError
    | x :: l' => Ok (fold_left (fun m y => if nltb y m then y else m) l' x)
    end.

  Section Model.
    Variable m : model nm.
    (** writer.py: Writer.getHandFinger *)
    Definition handFinger (b : string) : res (direction * finger) := dgetM (mfm m) b.
    (** keyboard.py:164-165: Keyboard.getRow *)
    Definition getRow (b : string) : res nat := dgetM (mrows m) b.

    (** carpalx.py:370-377: _strokePath.  Results as numbers. *)
    Definition strokePath (t : list string) : res (Z * Z * Z) :=
      do fs <- mapM handFinger t;
      do rs <- mapM getRow t;
      match t, fs, rs with
      | t0 :: t1 :: t2 :: _, f0 :: f1 :: f2 :: _, r0 :: r1 :: r2 :: _ =>
          do r <- strokePathRow (Z.of_nat r0) (Z.of_nat r1) (Z.of_nat r2);
          do f <- strokePathFinger f0 f1 f2 t0 t1 t2;
          Ok (strokePathHand (fst f0) (fst f1) (fst f2), r, f)
      | _, _, _ => Raise IndexError
      end.

    (** carpalx.py:379-384: _penalty *)
    Definition penalty (b : string) : res T :=
      do hf <- handFinger b;
      do row <- getRow b;
      do ph <- dgetM (pHand (mparams m)) (fst hf);
      do pr <- of_opt IndexError (nth_error (pRow (mparams m)) row);
      do pfs <- dgetM (pFinger (mparams m)) (fst hf);
      do pf <- dgetM pfs (snd hf);
      let p := mparams m in
      Ok (madd [(w0 p, nofZ 1); (wH p, ph); (wR p, pr); (wF p, pf)]).

    (** carpalx.py:394-399: effort of one combination *)
    Definition combEffort (f : string -> res T) (c : comb) : res T :=
      do perButton <- mapM f (miter m c);
      let numKeys := Z.of_nat (List.length perButton) in
      let simultaneousPenalty := nmul (nofZ (numKeys - 1)) (kSim (mparams m)) in
      Ok (nadd (nsum_py perButton) simultaneousPenalty).

    (** carpalx.py:386-400: _baseEffort *)
    Definition baseEffort (t : triad) (f : string -> res T) : res T :=
      do b <- mapM (combEffort f) t;
      match b with
      | b0 :: b1 :: b2 :: _ =>
          let p := mparams m in
          Ok (nmul (nmul (k1 p) b0)
                (nadd (nofZ 1) (nmul (nmul (k2 p) b1) (nadd (nofZ 1) (nmul (k3 p) b2)))))
      | _ => Raise IndexError
      end.

    (** carpalx.py:411: bmap[x.name] *)
    Definition baselineOf (b : string) : res T := dgetM (baseline (mparams m)) b.

    (** carpalx.py:417-418: stroke effort of one choice of buttons *)
    Definition strokeEffort (t : list string) : res T :=
      do hrf <- strokePath t;
      let '(h, r, f) := hrf in
      let p := mparams m in
      Ok (madd [(fH p, nofZ h); (fR p, nofZ r); (fF p, nofZ f)]).

    (** carpalx.py:408-421: effort of a triad, computed without the cache *)
    Definition triadCompute (t : triad) : res T :=
      do b <- baseEffort t baselineOf;
      do p <- baseEffort t penalty;
      do ss <- mapM strokeEffort (product (map (miter m) t));
      do s <- min_py ss;
      let q := mparams m in
      Ok (madd [(kB q, b); (kP q, p); (kS q, s)]).

    (** carpalx.py:253-258: runtime tests of __init__ *)
    Definition initCheck : res unit :=
      do r <- getRow "Bl1"; do _ <- assert_ (Nat.eqb r 0);
      do r <- getRow "Cl1"; do _ <- assert_ (Nat.eqb r 1);
      do r <- getRow "Dl1"; do _ <- assert_ (Nat.eqb r 2);
      do r <- getRow "El1"; assert_ (Nat.eqb r 3).
  End Model.

  (** * Objects.  Caches are shared between copies, so they live in a table of
      their own and an object refers to its cache by index. *)
  Definition cache := list (triad * T).
  Record inst := mkInst { imodel : model nm; iabs : T; icount : T; icache : nat }.
  Record cworld := mkW { insts : list inst; caches : list cache }.

  Fixpoint upd {A} (l : list A) (i : nat) (x : A) : list A :=
    match l, i with
    | [], _ => []
    | _ :: l', O => x :: l'
    | y :: l', S i' => y :: upd l' i' x
    end.
  Definition cacheOf (w : cworld) (c : nat) : cache := nth c (caches w) [].

  (** carpalx.py:402-423: _triadEffort *)
  Definition triadEffort (w : cworld) (o : inst) (t : triad) : cworld * res T :=
    match dget (cacheOf w (icache o)) t with
    | Some e => (w, Ok e)
    | None =>
        match triadCompute (imodel o) t with
        | Raise e => (w, Raise e)
        | Ok e => (mkW (insts w) (upd (caches w) (icache o) (dset (cacheOf w (icache o)) t e)), Ok e)
        end
    end.

  Definition setInst (w : cworld) (i : nat) (o : inst) : cworld := mkW (upd (insts w) i o) (caches w).

  (** carpalx.py:260-266: addTriad, removeTriad; [f] is the update of the fields *)
  Definition account (f : T -> T -> T) (w : cworld) (i : nat) (t : triad) (n : T) : cworld * res unit :=
    match nth_error (insts w) i with
    | None => (w, Raise AttributeError)
    | Some o =>
        match triadEffort w o t with
        | (w', Raise e) => (w', Raise e)
        | (w', Ok e) =>
            (setInst w' i (mkInst (imodel o) (f (iabs o) (nmul n e)) (f (icount o) n) (icache o)), Ok tt)
        end
    end.
  Definition addTriad := account nadd.
  Definition removeTriad := account nsub.
  (** carpalx.py:268-270: addTriads *)
  Fixpoint addTriads (w : cworld) (i : nat) (ts : list (triad * T)) : cworld * res unit :=
    match ts with
    | [] => (w, Ok tt)
    | (t, n) :: ts' =>
        match addTriad w i t n with
        | (w', Ok _) => addTriads w' i ts'
        | (w', Raise e) => (w', Raise e)
        end
    end.
  (** carpalx.py:272-274: reset *)
  Definition reset (w : cworld) (i : nat) : cworld * res unit :=
    match nth_error (insts w) i with
    | None => (w, Raise AttributeError)
    | Some o => (setInst w i (mkInst (imodel o) (nofZ 0) (nofZ 0) (icache o)), Ok tt)
    end.
  (** carpalx.py:246-258: __init__ *)
  Definition create (w : cworld) (m : model nm) : cworld * res unit :=
    match initCheck m with
    | Raise e => (w, Raise e)
    | Ok _ =>
        (mkW (insts w ++ [mkInst m (nofZ 0) (nofZ 0) (List.length (caches w))]) (caches w ++ [[]]), Ok tt)
    end.
  (** carpalx.py:276-282: copy.  The fresh object's own cache is dropped. *)
  Definition copy (w : cworld) (i : nat) : cworld * res unit :=
    match nth_error (insts w) i with
    | None => (w, Raise AttributeError)
    | Some o =>
        match initCheck (imodel o) with
        | Raise e => (w, Raise e)
        | Ok _ => (mkW (insts w ++ [mkInst (imodel o) (iabs o) (icount o) (icache o)]) (caches w), Ok tt)
        end
    end.
  (** carpalx.py:284-289: effort *)
  Definition effort (o : inst) : T :=
    if nis0 (icount o) then nofZ 0 else ndiv (iabs o) (icount o).

  (** Programs using the class. *)
  Inductive cop :=
    | CNew (m : model nm) | CAdd (i : nat) (t : triad) (n : T) | CRemove (i : nat) (t : triad) (n : T)
    | CAddMany (i : nat) (ts : list (triad * T)) | CReset (i : nat) | CCopy (i : nat).
  Definition cstep (w : cworld) (o : cop) : cworld * res unit :=
    match o with
    | CNew m => create w m
    | CAdd i t n => addTriad w i t n
    | CRemove i t n => removeTriad w i t n
    | CAddMany i ts => addTriads w i ts
    | CReset i => reset w i
    | CCopy i => copy w i
    end.
  (** Exceptions are caught by the caller, which goes on with the next call. *)
  Fixpoint crun (w : cworld) (os : list cop) : cworld * list (res unit) :=
    match os with
    | [] => (w, [])
    | o :: os' => let (w', r) := cstep w o in let (w'', rs) := crun w' os' in (w'', r :: rs)
    end.
  Definition cempty : cworld := mkW [] [].
End Carpalx.
