(** Independent vocabulary for C28-C32. *)
From Coq Require Import QArith.
From Verif Require Import Base LayoutModel CarpalxModel.
Close Scope Q_scope.
Open Scope string_scope.
Open Scope list_scope.

(** * C28: the books.  An object's ledger lists what was added to it, with its
    sign, since it was created or reset; a copy starts with the same ledger.
    [sc] says what a triad costs. *)
Notation ledger := (list (triad * Q)).
Section Ledger.
  Context {M : Type}.
  Variable sc : M -> triad -> option Q.

  (** Entries whose triad cannot be scored are refused. *)
  Definition enter (m : M) (l : ledger) (t : triad) (n : Q) : ledger :=
    match sc m t with Some _ => l ++ [(t, n)] | None => l end.
  (** addTriads gives up at the first such entry. *)
  Fixpoint enter_many (m : M) (l : ledger) (ts : list (triad * Q)) : ledger :=
    match ts with
    | [] => l
    | (t, n) :: ts' => match sc m t with Some _ => enter_many m (l ++ [(t, n)]) ts' | None => l end
    end.
  Definition cost (m : M) (t : triad) : Q := match sc m t with Some e => e | None => 0%Q end.
  Fixpoint qsum {A} (f : A -> Q) (l : list A) : Q :=
    match l with [] => 0%Q | x :: l' => (f x + qsum f l')%Q end.
  Definition weight (l : ledger) : Q := qsum snd l.
  Definition total (m : M) (l : ledger) : Q := qsum (fun e => (snd e * cost m (fst e))%Q) l.
  (** The weighted mean *)
  Definition mean (m : M) (l : ledger) : Q :=
    if Qeq_dec (weight l) 0 then 0%Q else (total m l / weight l)%Q.
End Ledger.

(** What a triad costs, as the ledger wants it. *)
Definition scoreQ (m : model Qnum) (t : triad) : option Q :=
  match triadCompute m t with Ok e => Some e | Raise _ => None end.

(** The ledgers a program leads to. *)
Notation lobj := (model Qnum * ledger)%type.
Definition lon (w : list lobj) (i : nat) (f : model Qnum -> ledger -> ledger) : list lobj :=
  match nth_error w i with None => w | Some (m, l) => upd w i (m, f m l) end.
Definition lstep (w : list lobj) (o : cop) : list lobj :=
  match o with
  | CNew m => if is_ok (initCheck m) then w ++ [(m, [])] else w
  | CAdd i t n => lon w i (fun m l => enter scoreQ m l t n)
  | CRemove i t n => lon w i (fun m l => enter scoreQ m l t (- n)%Q)
  | CAddMany i ts => lon w i (fun m l => enter_many scoreQ m l ts)
  | CReset i => lon w i (fun _ _ => [])
  | CCopy i => match nth_error w i with
               | Some (m, l) => if is_ok (initCheck m) then w ++ [(m, l)] else w
               | None => w
               end
  end.
Definition lrun (w : list lobj) (os : list cop) : list lobj := fold_left lstep os w.

(** * C29: the same programs without any cache: every object has its own fields
    and the effort of a triad is always computed. *)
Section Reference.
  Context {nm : num}.
  Notation T := (carrier nm).
  Record robj := mkR { rmodel : model nm; rabs : T; rcount : T }.
  Definition rupd (w : list robj) (i : nat) (f : robj -> robj * res unit) : list robj * res unit :=
    match nth_error w i with
    | None => (w, Raise AttributeError)
    | Some o => let (o', r) := f o in (upd w i o', r)
    end.
  Definition racc (f : T -> T -> T) (t : triad) (n : T) (o : robj) : robj * res unit :=
    match triadCompute (rmodel o) t with
    | Ok e => (mkR (rmodel o) (f (rabs o) (nmul n e)) (f (rcount o) n), Ok tt)
    | Raise e => (o, Raise e)
    end.
  Fixpoint racc_many (ts : list (triad * T)) (o : robj) : robj * res unit :=
    match ts with
    | [] => (o, Ok tt)
    | (t, n) :: ts' =>
        match racc nadd t n o with
        | (o', Ok _) => racc_many ts' o'
        | (o', Raise e) => (o', Raise e)
        end
    end.
  Definition rstep (w : list robj) (o : cop) : list robj * res unit :=
    match o with
    | CNew m => match initCheck m with Ok _ => (w ++ [mkR m (nofZ 0) (nofZ 0)], Ok tt) | Raise e => (w, Raise e) end
    | CAdd i t n => rupd w i (racc nadd t n)
    | CRemove i t n => rupd w i (racc nsub t n)
    | CAddMany i ts =>
        match ts with
        | [] => (w, Ok tt)
        | _ => rupd w i (racc_many ts)
        end
    | CReset i => rupd w i (fun o => (mkR (rmodel o) (nofZ 0) (nofZ 0), Ok tt))
    | CCopy i =>
        match nth_error w i with
        | None => (w, Raise AttributeError)
        | Some o => match initCheck (rmodel o) with Ok _ => (w ++ [o], Ok tt) | Raise e => (w, Raise e) end
        end
    end.
  Fixpoint rrun (w : list robj) (os : list cop) : list robj * list (res unit) :=
    match os with
    | [] => (w, [])
    | o :: os' => let (w', r) := rstep w o in let (w'', rs) := rrun w' os' in (w'', r :: rs)
    end.
End Reference.
Arguments robj : clear implicits.

(** * C30: meaning of the stroke path codes.  Rows are numbered from the top. *)
Inductive hand_path : direction -> direction -> direction -> Z -> Prop :=
  | HP_same h : hand_path h h h 2
  | HP_alternating h h' : h <> h' -> hand_path h h' h 1
  | HP_both_l h h' : h <> h' -> hand_path h h h' 0
  | HP_both_r h h' : h <> h' -> hand_path h h' h' 0.

Definition zigzag (a b c : Z) : Prop := (a < b /\ c < b)%Z \/ (b < a /\ b < c)%Z.
Definition drop (a b c : Z) : Z := Z.max (b - a) (c - b).   (* largest step down *)
Definition rise (a b c : Z) : Z := Z.max (a - b) (b - c).   (* largest step up *)
Inductive row_path (a b c : Z) : Z -> Prop :=
  | RP_same : a = b -> b = c -> row_path a b c 0
  | RP_down_rep : (a = b /\ b < c)%Z \/ (a < b /\ b = c)%Z -> row_path a b c 1
  | RP_up_rep : (a = b /\ c < b)%Z \/ (b < a /\ b = c)%Z -> row_path a b c 2
  | RP_zigzag_1 : zigzag a b c -> (drop a b c <= 1)%Z -> (rise a b c <= 1)%Z -> row_path a b c 3
  | RP_down : (a < b < c)%Z -> row_path a b c 4
  | RP_zigzag_down : zigzag a b c -> (1 < drop a b c)%Z -> row_path a b c 5
  | RP_up : (c < b < a)%Z -> row_path a b c 6
  | RP_zigzag_up : zigzag a b c -> (drop a b c <= 1)%Z -> (1 < rise a b c)%Z -> row_path a b c 7.

(** Fingers from left to right: the left hand's little finger is 1, its thumb
    5, the right hand's thumb 6, its little finger 10. *)
Definition left_to_right : list (direction * finger) :=
  [(LEFT, LITTLE); (LEFT, RING); (LEFT, MIDDLE); (LEFT, INDEX); (LEFT, THUMB);
   (RIGHT, THUMB); (RIGHT, INDEX); (RIGHT, MIDDLE); (RIGHT, RING); (RIGHT, LITTLE)].
Definition finger_pos (f : direction * finger) (p : nat) : Prop := nth_error left_to_right p = Some f.
Definition repeat_key (a b c : string) : Prop := a = b \/ b = c \/ a = c.
Definition monotone (a b c : nat) : Prop := a <= b <= c \/ c <= b <= a.
Definition distinct3 (a b c : nat) : Prop := a <> b /\ b <> c /\ a <> c.
Definition same3 (a b c : nat) : Prop := a = b /\ b = c.
(** the second finger reaches over the third: in, then back *)
Definition rolling (a b c : nat) : Prop := (b < c < a) \/ (a < c < b).
Inductive finger_path (a b c : nat) (x y z : string) : Z -> Prop :=
  | FP_monotone : distinct3 a b c -> monotone a b c -> finger_path a b c x y z 0
  | FP_some_rep : ~ distinct3 a b c -> ~ same3 a b c -> monotone a b c -> repeat_key x y z -> finger_path a b c x y z 1
  | FP_rolling : rolling a b c -> finger_path a b c x y z 2
  | FP_all_diff : distinct3 a b c -> ~ monotone a b c -> ~ rolling a b c -> finger_path a b c x y z 3
  | FP_some_diff : ~ distinct3 a b c -> ~ monotone a b c -> finger_path a b c x y z 4
  | FP_same_rep : same3 a b c -> repeat_key x y z -> finger_path a b c x y z 5
  | FP_some_norep : ~ distinct3 a b c -> ~ same3 a b c -> monotone a b c -> ~ repeat_key x y z -> finger_path a b c x y z 6
  | FP_same_norep : same3 a b c -> ~ repeat_key x y z -> finger_path a b c x y z 7.

Definition mirror (d : direction) : direction := match d with LEFT => RIGHT | RIGHT => LEFT end.
Definition mirror_fm (fm : list (string * (direction * finger))) : list (string * (direction * finger)) :=
  map (fun e => (fst e, (mirror (fst (snd e)), snd (snd e)))) fm.
Definition mirrored {nm} (m : model nm) : model nm :=
  mkModel nm (mparams m) (mirror_fm (mfm m)) (mrows m) (miter m).

(** * C31: the formula, over exact numbers *)
Section Formula.
  Variable m : model Qnum.
  Let p := mparams m.
  Open Scope Q_scope.
  (** Everything the model has to know about a button. *)
  Record bfacts := mkBF {
    bf_base : Q; bf_hand : direction; bf_finger : finger; bf_row : nat;
    bf_phand : Q; bf_prow : Q; bf_pfinger : Q }.
  Definition knows (b : string) (f : bfacts) : Prop :=
    dget (baseline p) b = Some (bf_base f) /\
    dget (mfm m) b = Some (bf_hand f, bf_finger f) /\
    dget (mrows m) b = Some (bf_row f) /\
    dget (pHand p) (bf_hand f) = Some (bf_phand f) /\
    nth_error (pRow p) (bf_row f) = Some (bf_prow f) /\
    exists pf, dget (pFinger p) (bf_hand f) = Some pf /\ dget pf (bf_finger f) = Some (bf_pfinger f).
  Definition known (b : string) : Prop := exists f, knows b f.
  Definition pen (f : bfacts) : Q :=
    w0 p + wH p * bf_phand f + wR p * bf_prow f + wF p * bf_pfinger f.
  (** Sum over the pressed buttons plus the penalty for each further one. *)
  Definition comb_cost (v : string -> Q) (c : comb) : Q :=
    qsum v (elems (cmod c)) + qsum v (elems (cbtn c))
    + inject_Z (Z.of_nat (comb_len c) - 1) * kSim p.
  Definition nest (a b c : Q) : Q := k1 p * a * (1 + k2 p * b * (1 + k3 p * c)).
  Definition pressed (c : comb) (b : string) : Prop := In b (elems (cmod c)) \/ In b (elems (cbtn c)).
  (** stroke effort of the buttons x, y, z *)
  Definition stroke (x y z : string) (s : Q) : Prop :=
    exists fx fy fz i j k h r f,
      knows x fx /\ knows y fy /\ knows z fz /\
      hand_path (bf_hand fx) (bf_hand fy) (bf_hand fz) h /\
      row_path (Z.of_nat (bf_row fx)) (Z.of_nat (bf_row fy)) (Z.of_nat (bf_row fz)) r /\
      finger_pos (bf_hand fx, bf_finger fx) i /\ finger_pos (bf_hand fy, bf_finger fy) j /\
      finger_pos (bf_hand fz, bf_finger fz) k /\ finger_path i j k x y z f /\
      s == fH p * inject_Z h + fR p * inject_Z r + fF p * inject_Z f.
  Definition least_stroke (c0 c1 c2 : comb) (s : Q) : Prop :=
    (exists x y z, pressed c0 x /\ pressed c1 y /\ pressed c2 z /\ stroke x y z s) /\
    (forall x y z s', pressed c0 x -> pressed c1 y -> pressed c2 z -> stroke x y z s' -> s <= s').
  Definition triad_formula (c0 c1 c2 : comb) (e : Q) : Prop :=
    exists bv pv s,
      (forall b f, knows b f -> bv b == bf_base f /\ pv b == pen f) /\
      least_stroke c0 c1 c2 s /\
      e == kB p * nest (comb_cost bv c0) (comb_cost bv c1) (comb_cost bv c2)
         + kP p * nest (comb_cost pv c0) (comb_cost pv c1) (comb_cost pv c2)
         + kS p * s.
End Formula.
(** The order in which combinations are iterated is not specified, but it
    yields every pressed button once. *)
Definition iterates {nm} (m : model nm) : Prop :=
  forall c, Permutation (miter m c) (elems (cmod c) ++ elems (cbtn c)).
