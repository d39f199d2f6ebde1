(** Model of lulua/stats.py:254-301 (pretty): the lines printed, as numbers and
    names before formatting.  Quotients are exact. *)
From Coq Require Import QArith.
From Verif Require Import Base LayoutModel TextModel FilterModel WriterModel StatsModel CarpalxModel CarpalxSpec OptModel PlotModel.
Close Scope Q_scope.
Open Scope string_scope.
Open Scope list_scope.

Inductive line :=
  | Presses (n : Z) | Button (b : string) (v : Z) (pct : Q)
  | Combinations (n : Z) | Combination (rank : Z) (t : text) (k : comb) (v : Z) (pct : Q)
  | Unknowns | Unknown (ch : N) (v : Z)
  | Hand (h : direction) | Run (len : nat) (v : Z) (pct : Q) | Combined
  | Triads | Triad (t : triad) (v : Z)
  | Words (n : Z) | Word (w : text) (pct : Q) (v : Z)
  | TotalEffort (e : Q).

(** One part of the program after another; an exception ends it. *)
Definition gthen {A} (a b : gen A) : gen A :=
  match snd a with None => (fst a ++ fst b, snd b) | Some _ => a end.
(** A loop printing one line for each item *)
Fixpoint gfor {A B} (f : A -> res B) (l : list A) : gen B :=
  match l with
  | [] => ([], None)
  | x :: l' => match f x with
               | Raise e => ([], Some e)
               | Ok y => gthen ([y], None) (gfor f l')
               end
  end.
(** [sorted (d.items (), key=itemgetter (1))] and [key=itemgetter (0)] *)
Definition by_count {K} (d : list (K * Z)) : list (K * Z) := sorted_by (fun a b => (snd a <=? snd b)%Z) d.
Definition by_length (d : list (nat * Z)) : list (nat * Z) := sorted_by (fun a b => (fst a <=? fst b)%nat) d.
(** [v/total*100] *)
Definition percentage (v total : Z) : res Q := do q <- truediv v total; Ok (q * 100)%Q.

Section Pretty.
  Variable disp : text -> res text.       (* util.displayText, see RenderModel *)
  Variable L : layout.
  Variable m : model Qnum.                (* models['mod01'] *)

  (** stats.py:261-264 *)
  Definition pretty_buttons (d : list (string * Z)) : gen line :=
    gthen ([Presses (zsum (dvals d))], None)
      (gfor (fun kv => do p <- percentage (snd kv) (zsum (dvals d)); Ok (Button (fst kv) (snd kv) p)) (by_count d)).
  (** stats.py:266-272; a text that is no string cannot be formatted *)
  Definition pretty_combs (d : list (comb * Z)) : gen line :=
    gthen ([Combinations (zsum (dvals d))], None)
      (gfor (fun ikv => let '(i, (k, v)) := ikv in
               do c <- getText L k;
               do t <- match c with CText t => disp t | COther => Raise TypeError end;
               do p <- percentage v (zsum (dvals d));
               Ok (Combination (Z.of_nat (List.length d) - Z.of_nat i) t k v p))
            (List.combine (seq 0 (List.length d)) (by_count d))).
  (** stats.py:274-276 *)
  Definition pretty_unknown (d : list (N * Z)) : gen line :=
    gthen ([Unknowns], None) (gfor (fun kv => Ok (Unknown (fst kv) (snd kv))) (by_count d)).
  (** stats.py:279-283 *)
  Definition pretty_hand (h : direction) (dist : list (nat * Z)) : gen line :=
    gthen ([Hand h], None)
      (gfor (fun kv => do p <- percentage (snd kv) (zsum (dvals dist)); Ok (Run (fst kv) (snd kv) p)) (by_length dist)).
  (** stats.py:284; a defaultdict (int) *)
  Definition add_runs (combined : list (nat * Z)) (dist : list (nat * Z)) : list (nat * Z) :=
    fold_left (fun d kv => cadd d (fst kv) (snd kv)) (by_length dist) combined.
  (** stats.py:278-288 *)
  Definition pretty_runs (d : list (direction * list (nat * Z))) : gen line :=
    let combined := fold_left (fun c hd => add_runs c (snd hd)) d [] in
    gthen (fold_right (fun hd rest => gthen (pretty_hand (fst hd) (snd hd)) rest) ([], None) d)
      (gthen ([Combined], None)
        (gfor (fun kv => do p <- percentage (snd kv) (zsum (dvals combined)); Ok (Run (fst kv) (snd kv) p)) combined)).
  (** stats.py:290-292 *)
  Definition pretty_triads (d : list (triad * Z)) : gen line :=
    gthen ([Triads], None) (gfor (fun kv => Ok (Triad (fst kv) (snd kv))) (by_count d)).
  (** stats.py:294-297 *)
  Definition pretty_words (d : list (text * Z)) : gen line :=
    gthen ([Words (zsum (dvals d))], None)
      (gfor (fun kv => do p <- percentage (snd kv) (zsum (dvals d)); Ok (Word (fst kv) p (snd kv))) (by_count d)).
  (** stats.py:299-301; the cache makes no difference (C29) *)
  Definition pretty_effort (d : list (triad * Z)) : gen line :=
    match initCheck m with
    | Raise e => ([], Some e)
    | Ok _ => match racc_many (map (fun tv => (fst tv, inject_Z (snd tv) : carrier Qnum)) d) (mkR m 0%Q 0%Q) with
              | (_, Raise e) => ([], Some e)
              | (o, Ok _) => ([TotalEffort (reffort o)], None)
              end
    end.
  (** stats.py:261-301 *)
  Definition pretty (s : allstats) : gen line :=
    gthen (pretty_buttons (s_buttons (a_simple s)))
    (gthen (pretty_combs (s_combs (a_simple s)))
    (gthen (pretty_unknown (s_unknown (a_simple s)))
    (gthen (pretty_runs (r_hand (a_runlen s)))
    (gthen (pretty_triads (t_triads (a_triads s)))
    (gthen (pretty_words (w_words (a_words s)))
           (pretty_effort (t_triads (a_triads s)))))))).
End Pretty.
