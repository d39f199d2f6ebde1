(** Model of lulua/optimize.py.  Carpalx objects are the cache-free ones of
    CarpalxSpec.v, which C29 shows to be indistinguishable from the real ones. *)
From Coq Require Import QArith.
From Verif Require Import Base LayoutModel CarpalxModel CarpalxSpec.
Close Scope Q_scope.
Open Scope string_scope.
Open Scope list_scope.

(** A layer number and a button. *)
Notation key := (nat * string)%type.
Notation bmap := (list ((nat * string) * (nat * string))).

(** * Annealer, optimize.py:41-100.  The state is an object with two mutable
    parts (optimize.py:112-122: LayoutOptimizerState) which copy() duplicates;
    objects live in two heaps and are referred to by index.  [mutate] is the
    overridden method; it changes the parts of the current state in place,
    consumes random numbers from position [p] on and returns the energy change.
    [thr i] is [acceptDiff] in step i. *)
Section Annealer.
  Context {nm : num}.
  Notation T := (carrier nm).
  Context {C M : Type}.
  Variable mutate : C -> M -> nat -> res (C * M * T * nat).
  Variable thr : nat -> T.

  Record heap := mkHeap { hc : list C; hm : list M }.
  Definition ref := (nat * nat)%type.
  (** optimize.py:119-122: copy *)
  Definition hcopy (h : heap) (r : ref) : res (heap * ref) :=
    match nth_error (hc h) (fst r), nth_error (hm h) (snd r) with
    | Some c, Some m =>
        Ok (mkHeap (hc h ++ [c]) (hm h ++ [m]), (List.length (hc h), List.length (hm h)))
    | _, _ => Raise AttributeError
    end.
  Definition hmutate (h : heap) (r : ref) (p : nat) : res (heap * T * nat) :=
    match nth_error (hc h) (fst r), nth_error (hm h) (snd r) with
    | Some c, Some m =>
        do cmd <- mutate c m p;
        let '(c', m', d, p') := cmd in
        Ok (mkHeap (upd (hc h) (fst r) c') (upd (hm h) (snd r) m'), d, p')
    | _, _ => Raise AttributeError
    end.

  Definition nabs (x : T) : T := if nltb x (nofZ 0) then nsub (nofZ 0) x else x.
  Definition nmax_py (x y : T) : T := if nltb x y then y else x.
  (** optimize.py:80-88: is the mutation accepted?  Also yields energyDiffMax. *)
  Definition decide (i : nat) (diff diffMax : T) : bool * T :=
    let a := nabs diff in
    let dm := nmax_py a diffMax in
    let rel := if nis0 dm then nofZ 1 else ndiv a dm in
    (nltb diff (nofZ 0) || nltb rel (thr i), dm).

  (** Variables of run() *)
  Record astate := mkA {
    a_heap : heap; a_state : ref; a_energy : T; a_dmax : T; a_best : ref * T; a_pos : nat }.
  (** optimize.py:73-95: one iteration *)
  Definition anneal_step (i : nat) (s : astate) : res astate :=
    do hp <- hcopy (a_heap s) (a_state s);                         (* 78 *)
    let (h1, prev) := hp in
    do hd <- hmutate h1 (a_state s) (a_pos s);                     (* 79 *)
    let '(h2, diff, p) := hd in
    let newEnergy := nadd (a_energy s) diff in                     (* 80 *)
    let (accept, dm) := decide i diff (a_dmax s) in
    if accept then
      if nltb newEnergy (snd (a_best s)) then
        do hb <- hcopy h2 (a_state s);                             (* 91 *)
        Ok (mkA (fst hb) (a_state s) newEnergy dm (snd hb, newEnergy) p)
      else Ok (mkA h2 (a_state s) newEnergy dm (a_best s) p)       (* 92 *)
    else Ok (mkA h2 prev (a_energy s) dm (a_best s) p).            (* 95 *)
  Fixpoint anneal_loop (n i : nat) (s : astate) : res astate :=
    match n with
    | O => Ok s
    | S n' => do s' <- anneal_step i s; anneal_loop n' (S i) s'
    end.
  (** optimize.py:62-100: run *)
  Definition anneal_run (steps : nat) (h : heap) (r : ref) (p : nat) : res astate :=
    do hb <- hcopy h r;                                            (* 70 *)
    anneal_loop steps 0 (mkA (fst hb) r (nofZ 0) (nofZ 0) (snd hb, nofZ 0) p).
End Annealer.

(** optimize.py:102-110: mapButton *)
Definition mapButton (L : layout) (bm : bmap) (c : comb) : res comb :=
  do il <- modifierToLayer L (cmod c);
  do _ <- assert_ (Nat.eqb (List.length (elems (cbtn c))) 1);
  do b <- first (elems (cbtn c));
  do t <- dgetM bm (fst il, b);
  do l <- of_opt IndexError (nth_error (layers L) (fst t));
  do m <- of_opt IndexError (hd_error (lmods l));
  Ok (mkComb m (frozenset [snd t])).

(** Simultaneous assignment [d[b], d[a] = d[a], d[b]] *)
Definition swap {K V} `{EqDec K} (d : list (K * V)) (a b : K) : res (list (K * V)) :=
  do va <- dgetM d a; do vb <- dgetM d b; Ok (dset (dset d b va) a vb).

Section Optimizer.
  Context {nm : num}.
  Notation T := (carrier nm).

  (** optimize.py:162-167: stateToTriad, sets as lists without duplicates *)
  Definition set_add (l : list nat) (i : nat) : list nat := if mem i l then l else l ++ [i].
  Definition s2t_comb (L : layout) (i : nat) (d : list (key * list nat)) (c : comb) : res (list (key * list nat)) :=
    do il <- modifierToLayer L (cmod c);
    do _ <- assert_ (Nat.eqb (List.length (elems (cbtn c))) 1);
    do b <- first (elems (cbtn c));
    let k := (fst il, b) in
    Ok (dset d k (set_add (match dget d k with Some l => l | None => [] end) i)).
  Definition stateToTriad (L : layout) (ts : list (triad * T)) : res (list (key * list nat)) :=
    foldM (fun d it => foldM (s2t_comb L (fst it)) (fst (snd it)) d) (enumerate ts) [].

  (** optimize.py:145-167: the fields that do not change *)
  Record optimizer := mkOpt {
    o_triads : list (triad * T); o_layout : layout; o_pins : list (Z * option string);
    o_all : list key; o_s2t : list (key * list nat) }.
  Definition opt_new (bm : bmap) (ts : list (triad * T)) (L : layout) (pins : list (Z * option string)) : res optimizer :=
    do s <- stateToTriad L ts; Ok (mkOpt ts L pins (dkeys bm) s).

  Section Methods.
    Variable o : optimizer.
    (** Results of random.choice: the element with index [rnd p] modulo the length *)
    Variable rnd : nat -> nat.
    (** Iteration order of sets of triad numbers *)
    Variable ord : list nat -> list nat.

    Definition pin_of (k : key) : Z * option string := (Z.of_nat (fst k), Some (snd k)).
    (** optimize.py:169-182: _acceptMutation *)
    Definition acceptMutation (bm : bmap) (a b : key) : res bool :=
      if eqb a b then Ok false else
      do newa <- dgetM bm b;
      do newb <- dgetM bm a;
      Ok (negb (mem (pin_of a) (o_pins o) || mem (pin_of b) (o_pins o)
        || (mem (Z.of_nat (fst a), None) (o_pins o) && negb (Nat.eqb (fst newa) (fst a)))
        || (mem (Z.of_nat (fst b), None) (o_pins o) && negb (Nat.eqb (fst newb) (fst b))))).

    Definition choice (p : nat) : res key :=
      of_opt IndexError (nth_error (o_all o) (Nat.modulo (rnd p) (List.length (o_all o)))).
    (** optimize.py:187-191 *)
    Fixpoint draw (fuel : nat) (bm : bmap) (p : nat) : res (key * key * nat) :=
      match fuel with
      | O => Raise OutOfFuel
      | S fuel' =>
          do a <- choice p;
          do b <- choice (S p);
          do ok <- acceptMutation bm a b;
          if ok : bool then Ok (a, b, S (S p)) else draw fuel' bm (S (S p))
      end.

    Definition mapTriad (bm : bmap) (t : triad) : res triad := mapM (mapButton (o_layout o) bm) t.
    Definition robj_do (r : robj nm * res unit) : res (robj nm) :=
      match r with (c, Ok _) => Ok c | (_, Raise e) => Raise e end.
    (** optimize.py:203-206 and 212-215 *)
    Definition shift (f : T -> T -> T) (bm : bmap) (is : list nat) (c : robj nm) : res (robj nm) :=
      foldM (fun c i =>
        do tv <- of_opt IndexError (nth_error (o_triads o) i);
        do t' <- mapTriad bm (fst tv);
        robj_do (racc f t' (snd tv) c)) is c.
    Definition dedup (l : list nat) : list nat := fold_left set_add l [].
    Definition triads_of (k : key) : list nat := match dget (o_s2t o) k with Some l => l | None => [] end.
    Definition reffort (c : robj nm) : T := if nis0 (rcount c) then nofZ 0 else ndiv (rabs c) (rcount c).

    (** optimize.py:184-219: mutate (withEnergy=True) *)
    Definition mutate (fuel : nat) (c : robj nm) (bm : bmap) (p : nat) : res (robj nm * bmap * T * nat) :=
      do abp <- draw fuel bm p;
      let '(a, b, p') := abp in
      let oldEffort := reffort c in
      let affected := ord (dedup (triads_of a ++ triads_of b)) in
      do c1 <- shift nsub bm affected c;
      do bm' <- swap bm a b;
      do c2 <- shift nadd bm' affected c1;
      Ok (c2, bm', nsub (reffort c2) oldEffort, p').
    (** optimize.py:192-194: mutate (withEnergy=False) *)
    Definition mutate_quick (fuel : nat) (bm : bmap) (p : nat) : res (bmap * nat) :=
      do abp <- draw fuel bm p;
      let '(a, b, p') := abp in
      do bm' <- swap bm a b; Ok (bm', p').

    (** optimize.py:225-234: _resetEnergy *)
    Definition resetEnergy (c : robj nm) (bm : bmap) : res (robj nm) :=
      foldM (fun c tv =>
        do t' <- mapTriad bm (fst tv);
        robj_do (racc nadd t' (snd tv) c)) (o_triads o) (mkR (rmodel c) (nofZ 0) (nofZ 0)).

    (** optimize.py:236-238: run *)
    Definition opt_run (fuel : nat) (thr : nat -> T) (steps : nat) (c : robj nm) (bm : bmap) (p : nat)
      : res (astate (nm:=nm) (C:=robj nm) (M:=bmap)) :=
      do c' <- resetEnergy c bm;
      anneal_run (mutate fuel) thr steps (mkHeap [c'] [bm]) (0, 0) p.
  End Methods.
End Optimizer.
Arguments optimizer : clear implicits.

(** * The command line tool, optimize.py:269-383 *)
(** optimize.py:303-317: the initial map.  [isLetter] tells LetterButtons. *)
Definition mutable_key (L : layout) (isLetter : string -> bool) (k : string) : bool :=
  isLetter k && negb (isModifier L (frozenset [k])).
Definition initial_map (L : layout) (kb : list string) (isLetter : string -> bool) : bmap :=
  let keys := flat_map (fun il => map (fun k => (fst il, k)) (filter (mutable_key L isLetter) kb))
                       (enumerate (layers L)) in
  dict_of (combine keys keys).
(** A layer number given by the user *)
Definition user_key (kb : list string) (ik : Z * string) : res key :=
  do k <- kfind kb (snd ik);
  if (fst ik <? 0)%Z then Raise KeyError else Ok (Z.to_nat (fst ik), k).
(** optimize.py:320-324 *)
Definition apply_mutations (kb : list string) (ms : list ((Z * string) * (Z * string))) (bm : bmap) : res bmap :=
  foldM (fun bm ab => do a <- user_key kb (fst ab); do b <- user_key kb (snd ab); swap bm a b) ms bm.
(** optimize.py:326-336.  [fnm] is fnmatch. *)
Definition expand_pins (fnm : string -> string -> bool) (kb : list string) (pins : list (Z * option string)) : list (Z * option string) :=
  flat_map (fun p => match snd p with
                     | None => [(fst p, None)]
                     | Some pat => map (fun k => (fst p, Some k)) (filter (fun k => fnm k pat) kb)
                     end) pins.

(** optimize.py:363-368 *)
Definition target (bm : bmap) (k : key) : key := match dget bm k with Some t => t | None => k end.
(** optimize.py:362-375: one key of one layer of the input layout.  The assertion
    in line 370 looks for a Button among strings, which is never found (Button
    only equals Button, keyboard.py:58-61), so it always passes. *)
Definition put_key (L : layout) (bm : bmap) (i : nat) (l : layer) (out : list layer_data) (k : string) : res (list layer_data) :=
  let (j, k') := target bm (i, k) in
  do lj <- of_opt IndexError (nth_error out j);
  do m0 <- of_opt IndexError (hd_error (lmods l));
  match getText L (mkComb m0 (frozenset [k])) with
  | Ok v => Ok (upd out j (mkLD (ld_modifier lj) (dset (ld_layer lj) k' v)))
  | Raise KeyError => Ok out
  | Raise e => Raise e
  end.
(** optimize.py:359-375.  [ordm] is the iteration order of modifiers. *)
Definition put_layer (ordm : bset -> list string) (L : layout) (kb : list string) (bm : bmap)
    (out : list layer_data) (il : nat * layer) : res (list layer_data) :=
  let (i, l) := il in
  do li <- of_opt IndexError (nth_error out i);
  let out' := upd out i (mkLD (ld_modifier li ++ map ordm (lmods l)) (ld_layer li)) in
  foldM (put_key L bm i l) kb out'.
Definition new_layers (ordm : bset -> list string) (L : layout) (kb : list string) (bm : bmap) : res (list layer_data) :=
  foldM (put_layer ordm L kb bm) (enumerate (layers L)) (map (fun _ => mkLD [] []) (layers L)).

(** optimize.py:297: sorted by count, descending, stable *)
Fixpoint insert_desc {A} (x : A * Z) (l : list (A * Z)) : list (A * Z) :=
  match l with
  | [] => [x]
  | y :: l' => if (snd y <? snd x)%Z then x :: l else y :: insert_desc x l'
  end.
Definition sort_desc {A} (l : list (A * Z)) : list (A * Z) := fold_left (fun acc x => insert_desc x acc) l [].

(** optimize.py:297-299 *)
Definition used_triads {A} (limit : Z) (l : list (A * Z)) : list (A * Z) :=
  if (0 <? limit)%Z then firstn (Z.to_nat limit) (sort_desc l) else sort_desc l.

Record opt_args := mkArgs {
  g_limit : Z; g_steps : nat; g_randomize : bool;
  g_pins : list (Z * option string); g_mutations : list ((Z * string) * (Z * string)) }.

Section Main.
  Context {nm : num}.
  Notation T := (carrier nm).
  Variable fnm : string -> string -> bool.       (* fnmatch *)
  Variable isLetter : string -> bool.            (* LetterButton *)
  Variable rnd : nat -> nat.                     (* random numbers *)
  Variable ord : list nat -> list nat.           (* iteration order of sets of numbers *)
  Variable ordm : bset -> list string.           (* iteration order of modifiers *)
  Variable thr : nat -> T.                       (* acceptDiff *)
  Variable tol : T.                              (* 0.0001 *)
  Variable fuel : nat.                           (* bound on unsuccessful draws *)

  (** optimize.py:341-342 *)
  Fixpoint randomize (o : optimizer nm) (n : nat) (bm : bmap) (p : nat) : res (bmap * nat) :=
    match n with
    | O => Ok (bm, p)
    | S n' => do r <- mutate_quick o rnd fuel bm p; randomize o n' (fst r) (snd r)
    end.

  (** optimize.py:288-377.  Yields the layers written and the energy printed. *)
  Definition optimize (g : opt_args) (L : layout) (kb : list string) (m : model nm)
      (stats : list (triad * Z)) : res (list layer_data * T) :=
    let ts := map (fun tv => (fst tv, nofZ (snd tv))) (used_triads (g_limit g) stats) in
    do bm <- apply_mutations kb (g_mutations g) (initial_map L kb isLetter);
    let pins := expand_pins fnm kb (g_pins g) in
    do _ <- initCheck m;
    do o <- opt_new bm ts L pins;
    do bp <- (if g_randomize g then randomize o (2 * List.length bm) bm 0 else Ok (bm, 0));
    let c0 := mkR m (nofZ 0) (nofZ 0) in
    do s <- opt_run o rnd ord fuel thr (g_steps g) c0 (fst bp) (snd bp);
    let rb := fst (a_best s) in
    do best <- of_opt AttributeError (nth_error (hm (a_heap s)) (snd rb));
    do cur_c <- of_opt AttributeError (nth_error (hc (a_heap s)) (fst (a_state s)));
    do cur_m <- of_opt AttributeError (nth_error (hm (a_heap s)) (snd (a_state s)));
    let energy := reffort cur_c in
    do _ <- assert_ (forallb (fun k => mem k (dvals best)) (dkeys best) &&
                     forallb (fun v => mem v (dkeys best)) (dvals best));
    do c' <- resetEnergy o cur_c cur_m;
    do _ <- assert_ (nltb (nabs (nsub (reffort c') energy)) tol);
    do out <- new_layers ordm L kb best;
    Ok (out, energy).
End Main.

(** * Arguments, optimize.py:240-267.  [int_] is Python's int() on strings. *)
Section Args.
  Variable int_ : text -> res Z.
  (** str.split with a one character separator *)
  Fixpoint split_on (c : N) (t : text) : list text :=
    match t with
    | [] => [[]]
    | x :: t' =>
        if N.eqb x c then [] :: split_on c t'
        else match split_on c t' with s :: ss => (x :: s) :: ss | [] => [[x]] end
    end.
  (** str.split (sep, 1) *)
  Fixpoint split_once (c : N) (t : text) : list text :=
    match t with
    | [] => [[]]
    | x :: t' =>
        if N.eqb x c then [[]; t']
        else match split_once c t' with s :: ss => (x :: s) :: ss | [] => [[x]] end
    end.
  Definition semicolon : N := 59. Definition comma : N := 44. Definition colon : N := 58.
  Definition pin1 (p : text) : res (Z * option text) :=
    let q := split_once comma p in
    do layer <- int_ (nth 0 q []);
    Ok (layer, nth_error q 1).
  (** optimize.py:240-261.  The frozenset is represented by the list of its
      elements in order of first occurrence. *)
  Definition parsePin (s : text) : res (list (Z * option text)) :=
    do ps <- mapM pin1 (split_on semicolon s);
    Ok (fold_left (fun acc x => if mem x acc then acc else acc ++ [x]) ps []).
  (** optimize.py:263-267 *)
  Definition pair_of (l : list text) : res (text * text) :=
    match l with [a; b] => Ok (a, b) | _ => Raise ValueError end.
  Definition parseMutation (s : text) : res ((Z * text) * (Z * text)) :=
    do ab <- pair_of (split_on colon s);
    do a <- pair_of (split_on comma (fst ab));
    do b <- pair_of (split_on comma (snd ab));
    do i <- int_ (fst a);
    do j <- int_ (fst b);
    Ok ((i, snd a), (j, snd b)).
End Args.
