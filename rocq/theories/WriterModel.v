(** Model of lulua/writer.py. *)
From Verif Require Import Base LayoutModel.
Open Scope list_scope.

(** Events yielded by [Writer.type]: (match, comb) pairs, or (None,
    SkipEvent(char)).  writer.py:110-123, 202, 208 *)
Inductive event := EMatch (t : text) (c : comb) | ESkip (ch : N).
#[global] Instance EqDec_event : EqDec event.
Proof.
  refine {| eqb := fun a b => match a, b with
       | EMatch t c, EMatch t' c' => eqb t t' && eqb c c'
       | ESkip n, ESkip m => eqb n m
       | _, _ => false end |}.
  intros [t c|n] [t' c'|m]; try (split; congruence).
  - rewrite andb_true_iff, !eqb_eq. split; [intros [-> ->]|intros E; inversion E]; auto.
  - rewrite eqb_eq. split; congruence.
Defined.

Section Writer.
  (** writer.py:28-108: defaultFingermap *)
  Variable fm : list (string * (direction * finger)).

  (** writer.py:142-143 *)
  Definition getHandFinger (b : string) : res (direction * finger) := dgetM fm b.

  (** writer.py:163: dirToScore *)
  Definition dirToScore (d : direction) : Z := match d with LEFT => 1 | RIGHT => -1 end.
  (** writer.py:169-171, 177-179: sum of scores *)
  Definition sumScore (bs : list string) : res Z :=
    foldM (fun acc b => do hf <- getHandFinger b; Ok (acc + dirToScore (fst hf))%Z) bs 0%Z.

  (** [prev.modifier or prev.buttons] *)
  Definition mod_or_buttons (c : comb) : list string :=
    match elems (cmod c) with [] => elems (cbtn c) | l => l end.

  (** writer.py:164-181: calcEffort *)
  Definition calcEffort (prev : option comb) (c : comb) : res Z :=
    do prevBalance <- match prev with
                      | Some p => sumScore (mod_or_buttons p ++ elems (cbtn c))
                      | None => Ok (dirToScore RIGHT)
                      end;
    do balance <- sumScore (comb_iter c);
    Ok (Z.lor (Z.lor (Z.shiftl (Z.of_nat (comb_len c)) 16) (Z.shiftl (Z.abs balance) 8))
              (Z.shiftl (Z.abs prevBalance) 0)).

  (** Python's [min(pairs, key=itemgetter(0))]: first of the smallest *)
  Fixpoint min_by (best : Z * comb) (l : list (Z * comb)) : comb :=
    match l with
    | [] => snd best
    | p :: l' => min_by (if Z.ltb (fst p) (fst best) then p else best) l'
    end.

  (** writer.py:145-184 *)
  Definition chooseCombination (last : option comb) (cs : list comb) : res comb :=
    match cs with
    | [c] => Ok c
    | _ =>
        do es <- mapM (calcEffort last) cs;
        match combine es cs with
        | [] => Raise ValueError        (* min() of an empty sequence *)
        | p :: l => Ok (min_by p l)
        end
    end.

  (** A text file: [read n] returns some characters and the rest of the file. *)
  Variable R : Type.
  Variable read : R -> nat -> text * R.

  Inductive final := Done | Exn (e : exn).

  (** writer.py:189-210.  Result: events yielded, how the generator ended, the
      combination last pressed.  [len(buf) <= bufferLen] always holds for files
      that return at most as many characters as requested, so natural
      subtraction is Python's subtraction. *)
  Fixpoint type_loop (L : layout) (fuel : nat) (r : R) (buf : text) (last : option comb)
    : list event * final * option comb :=
    match fuel with
    | O => ([], Exn OutOfFuel, last)
    | S fuel' =>
        let (s, r') := read r (bufferLen L - length buf) in
        let buf' := buf ++ s in
        match buf' with
        | [] => ([], Done, last)
        | ch :: rest =>
            let step : res (text * comb) :=
              do mc <- lookup L buf';
              do _ <- assert_ (Nat.ltb 0 (length (fst mc)));
              do c <- chooseCombination last (snd mc);
              Ok (fst mc, c) in
            match step with
            | Ok (m, c) =>
                let '(es, f, l) := type_loop L fuel' r' (skipn (length m) buf') (Some c) in
                (EMatch m c :: es, f, l)
            | Raise KeyError =>
                let '(es, f, l) := type_loop L fuel' r' rest last in
                (ESkip ch :: es, f, l)
            | Raise e => ([], Exn e, last)
            end
        end
    end.
End Writer.

(** io.StringIO *)
Definition read_full (t : text) (n : nat) : text * text := (firstn n t, skipn n t).
(** A file that may return short reads: the schedule says how many characters
    are available each time (at least one before end of file). *)
Definition read_short (st : text * list nat) (n : nat) : text * (text * list nat) :=
  let (t, sched) := st in
  match sched with
  | [] => (firstn n t, (skipn n t, []))
  | k :: ks => let m := Nat.min n (S k) in (firstn m t, (skipn m t, ks))
  end.

(** [Writer(layout).type(StringIO(t))], possibly after earlier presses. *)
Definition type_text (fm : list (string * (direction * finger))) (L : layout) (last : option comb) (t : text) :=
  type_loop fm text read_full L (S (length t)) t [] last.
