(** Vocabulary for the statistics properties. *)
From Verif Require Import Base LayoutModel StatsModel.
Open Scope list_scope.

(** Stretches of presses not interrupted by skipped characters. *)
Fixpoint stretches (es : list sevent) : list (list comb) :=
  match es with
  | [] => [[]]
  | SComb c :: es' => match stretches es' with s :: ss => (c :: s) :: ss | [] => [[c]] end
  | _ :: es' => [] :: stretches es'
  end.

(** Run length encoding. *)
Fixpoint rle {A} `{EqDec A} (l : list A) : list (A * nat) :=
  match l with
  | [] => []
  | x :: l' => match rle l' with
               | (y, n) :: r => if eqb x y then (y, S n) :: r else (x, 1) :: (y, n) :: r
               | [] => [(x, 1)]
               end
  end.
(** ... which is characterised by: *)
Fixpoint adjacent_distinct {A} (l : list A) : Prop :=
  match l with x :: ((y :: _) as l') => x <> y /\ adjacent_distinct l' | _ => True end.
Definition is_rle {A} (l : list A) (r : list (A * nat)) : Prop :=
  concat (map (fun p => repeat (fst p) (snd p)) r) = l /\ Forall (fun p => 0 < snd p) r /\ adjacent_distinct (map fst r).

(** Runs that were ended by a different press. *)
Definition completed {A} `{EqDec A} (l : list A) : list (A * nat) := removelast (rle l).
(** The same run lengths, each paired with the press that ended the run. *)
Definition credited {A} `{EqDec A} (l : list A) : list (A * nat) := combine (map fst (tl (rle l))) (map snd (rle l)).

(** Windows of three. *)
Fixpoint windows {A} (l : list A) : list (list A) :=
  match l with
  | x :: ((y :: z :: _) as l') => [x; y; z] :: windows l'
  | _ => []
  end.

(** Words of a text: split at every non-letter, drop the part after the last
    non-letter, drop empty parts. *)
Fixpoint split_at (letter : N -> bool) (t : text) : list text :=
  match t with
  | [] => [[]]
  | c :: t' => if letter c then match split_at letter t' with w :: ws => (c :: w) :: ws | [] => [[c]] end
               else [] :: split_at letter t'
  end.
Definition finished_words (letter : N -> bool) (t : text) : list text :=
  filter (fun w => negb (Nat.eqb (length w) 0)) (removelast (split_at letter t)).

(** Presses of a button within an event (as modifier or as button). *)
Definition presses (b : string) (e : sevent) : Z :=
  match e with
  | SComb c => (if mem b (elems (cmod c)) then 1 else 0) + (if mem b (elems (cbtn c)) then 1 else 0)
  | _ => 0
  end%Z.
Definition sumZ {A} (f : A -> Z) (l : list A) : Z := fold_right (fun x n => f x + n)%Z 0%Z l.
Definition proper (e : sevent) : Prop := e <> SOther.
(** A counter dict contains exactly the positive counts of [f]. *)
Definition counts {K} `{EqDec K} (d : list (K * Z)) (f : K -> Z) : Prop :=
  dict_wf d /\ forall k, dget d k = if (f k =? 0)%Z then None else Some (f k).
(** One-button presses with known hand and finger. *)
Definition pressable (fm : list (string * (direction * finger))) (e : sevent) : Prop :=
  match e with
  | SComb c => exists b, elems (cbtn c) = [b] /\ In b (dkeys fm)
  | SSkip _ => True
  | SOther => False
  end.
Definition hand_finger (fm : list (string * (direction * finger))) (c : comb) : direction * finger :=
  match elems (cbtn c) with
  | [b] => match dget fm b with Some hf => hf | None => (LEFT, LITTLE) end
  | _ => (LEFT, LITTLE)
  end.
(** Presses of a single button which is not in [ign]. *)
Definition counted (ign : bset) (c : comb) : bool := match elems (cbtn c) with [b] => negb (mem b (elems ign)) | _ => false end.
Definition single (e : sevent) : Prop := match e with SComb c => exists b, elems (cbtn c) = [b] | SSkip _ => True | SOther => False end.
(** Text of a press. *)
Definition typed (L : layout) (c : comb) : text := match getText L c with Ok (CText t) => t | _ => [] end.
Definition typable (L : layout) (e : sevent) : Prop := match e with SComb c => exists t, getText L c = Ok (CText t) | SSkip _ => True | SOther => False end.
Definition nget {K L} `{EqDec K} `{EqDec L} (d : list (K * list (L * Z))) (k : K) (n : L) : Z :=
  match dget d k with Some i => cget i n | None => 0%Z end.

(** All counters of the four statistics objects by name. *)
Inductive counter :=
  | CButton (b : string) | CComb (c : comb) | CUnknown (ch : N)
  | CHand (h : direction) (n : nat) | CFinger (hf : direction * finger) (n : nat)
  | CTriad (t : list comb) | CWord (w : text).
Definition nlook {K L} `{EqDec K} `{EqDec L} (d : list (K * list (L * Z))) (k : K) (n : L) : option Z :=
  match dget d k with Some i => dget i n | None => None end.
(** Recorded value, None if there is no such key. *)
Definition recorded (s : allstats) (x : counter) : option Z :=
  match x with
  | CButton b => dget (s_buttons (a_simple s)) b
  | CComb c => dget (s_combs (a_simple s)) c
  | CUnknown ch => dget (s_unknown (a_simple s)) ch
  | CHand h n => nlook (r_hand (a_runlen s)) h n
  | CFinger hf n => nlook (r_finger (a_runlen s)) hf n
  | CTriad t => dget (t_triads (a_triads s)) t
  | CWord w => dget (w_words (a_words s)) w
  end.
Definition is_finger (x : counter) : bool := match x with CFinger _ _ => true | _ => false end.
(** Sum of two counters, either of which may be missing. *)
Definition oadd (x y : option Z) : option Z :=
  match x, y with
  | Some a, Some b => Some (a + b)%Z
  | Some a, None => Some a
  | None, y => y
  end.
Definition osum {A} (f : A -> option Z) (l : list A) : option Z := fold_right (fun x n => oadd (f x) n) None l.
(** All dictionaries have distinct keys. *)
Definition nested_wf {K L} `{EqDec K} `{EqDec L} (d : list (K * list (L * Z))) : Prop :=
  dict_wf d /\ Forall (fun ki => dict_wf (snd ki)) d.
Definition stats_wf (s : allstats) : Prop :=
  dict_wf (s_buttons (a_simple s)) /\ dict_wf (s_combs (a_simple s)) /\ dict_wf (s_unknown (a_simple s)) /\
  nested_wf (r_hand (a_runlen s)) /\ nested_wf (r_finger (a_runlen s)) /\ dict_wf (t_triads (a_triads s)) /\ dict_wf (w_words (a_words s)).

(** Events equal to a press of [c] / to skipping [ch]. *)
Definition is_press (c : comb) (e : sevent) : Z := match e with SComb c' => if eqb c c' then 1 else 0 | _ => 0 end%Z.
Definition is_skip (ch : N) (e : sevent) : Z := match e with SSkip ch' => if eqb ch ch' then 1 else 0 | _ => 0 end%Z.
(** Hands and fingers of presses. *)
Definition hands_of fm (s : list comb) : list direction := map (fun c => fst (hand_finger fm c)) s.
Definition fingers_of fm (s : list comb) : list (direction * finger) := map (hand_finger fm) s.
(** Sum of per-stretch counts. *)
Definition per_stretch {A} `{EqDec A} (f : list comb -> list A) (es : list sevent) (x : A) : Z := sumZ (fun s => count x (f s)) (stretches es).
(** What each counter should be after the events [es]. *)
Definition expected fm letter L ign (es : list sevent) (x : counter) : Z :=
  match x with
  | CButton b => sumZ (presses b) es
  | CComb c => sumZ (is_press c) es
  | CUnknown ch => sumZ (is_skip ch) es
  | CHand h n => per_stretch (fun s => completed (hands_of fm s)) es (h, n)
  | CFinger hf n => per_stretch (fun s => credited (fingers_of fm s)) es (hf, n)
  | CTriad t => per_stretch (fun s => windows (filter (counted ign) s)) es t
  | CWord w => per_stretch (fun s => finished_words letter (flat_map (typed L) s)) es w
  end.
Definition nonzero (z : Z) : option Z := if (z =? 0)%Z then None else Some z.
Definition spaces : bset := frozenset ["Fl_space"; "Fr_space"; "CD_ret"; "Cl_tab"]%string.
(** Events all statistics objects can handle. *)
Definition handled fm L (e : sevent) : Prop := pressable fm e /\ typable L e.
