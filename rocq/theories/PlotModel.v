(** Model of the tools working on recorded statistics: lulua/plot.py:48-222 and
    lulua/stats.py:303-406.  Quotients are exact; the code computes them with
    floats. *)
From Coq Require Import QArith.
From Verif Require Import Base UtilModel LayoutModel WriterModel StatsModel CarpalxModel CarpalxSpec OptModel RenderModel.
Close Scope Q_scope.
Open Scope string_scope.
Open Scope list_scope.

(** Python's [sorted]: stable.  [le x y] is [key x <= key y], or [key y <= key x]
    with reverse=True, which keeps the order of equal elements, too. *)
Fixpoint insert_by {A} (le : A -> A -> bool) (x : A) (l : list A) : list A :=
  match l with
  | [] => [x]
  | y :: l' => if le x y then x :: l else y :: insert_by le x l'
  end.
Definition sorted_by {A} (le : A -> A -> bool) (l : list A) : list A := fold_right (insert_by le) [] l.
(** Python's [sum] *)
Definition zsum (l : list Z) : Z := fold_left Z.add l 0%Z.
(** int / int *)
Definition truediv (a b : Z) : res Q :=
  if (b =? 0)%Z then Raise ZeroDivisionError else Ok (inject_Z a / inject_Z b)%Q.
(** Access to a defaultdict (int) and [d[k] += v] *)
Definition dget0 {K} `{EqDec K} (d : list (K * Z)) (k : K) : Z := match dget d k with Some x => x | None => 0%Z end.
Definition cadd {K} `{EqDec K} (d : list (K * Z)) (k : K) (v : Z) : list (K * Z) := dset d k (dget0 d k + v)%Z.

#[global] Instance EqDec_cell : EqDec cell.
Proof.
  apply (EqDec_inj (fun c => match c with CText t => Some t | COther => None end)).
  intros [] []; congruence.
Defined.

(** * plot.py:48-120: letterfreq *)
(** plot.py:67-73: [category] is unicodedata.category; indexing a value that is
    no string raises TypeError, indexing an empty string IndexError. *)
Definition letter_bin (category : N -> string) (L : layout) (binned : list (text * Z)) (kv : comb * Z) : res (list (text * Z)) :=
  do text <- getText L (fst kv);
  match text with
  | COther => Raise TypeError
  | CText [] => Raise IndexError
  | CText (c :: r) => Ok (if mem (category c) ["Lo"] then cadd binned (c :: r) (snd kv) else binned)
  end.
Record lrow := mkRow { lx : nat; lletter : text; lrel : Q; labs : Z; lcum : Z; lcumRel : Q }.
(** plot.py:84-94 *)
Fixpoint letter_rows (total : Z) (i : nat) (cumSum : Z) (l : list (text * Z)) : res (list lrow) :=
  match l with
  | [] => Ok []
  | (k, v) :: l' =>
      do rel <- truediv v total;
      do cumRel <- truediv cumSum total;
      do rows <- letter_rows total (S i) (cumSum - v) l';
      Ok (mkRow i k rel v cumSum cumRel :: rows)
  end.
(** The data source of the plot; [max (ydata)] in plot.py:107 fails if there is none. *)
Definition letterfreq (category : N -> string) (L : layout) (combs : list (comb * Z)) : res (list lrow) :=
  do binned <- foldM (letter_bin category L) combs [];
  let combinationTotal := zsum (dvals binned) in
  do rows <- letter_rows combinationTotal 0 combinationTotal (sorted_by (fun a b => (snd a <=? snd b)%Z) binned);
  match rows with [] => Raise ValueError | _ => Ok rows end.

(** * Triads by text, plot.py:141-152 and 190-201 *)
Record tbin := mkBin { bweight : Z; beffort : robj Qnum; blayers : list nat }.
(** [data['effort'].effort] *)
Definition bin_effort (b : tbin) : Q := reffort (beffort b).
(** plot.py:143-152.  Every bin has a Carpalx object of its own; the cache makes
    no difference (C29).  An exception ends the program. *)
Definition triad_bin (L : layout) (m : model Qnum) (st : list (list cell * tbin) * Z) (tw : triad * Z)
    : res (list (list cell * tbin) * Z) :=
  let (binned, weightSum) := st in
  let (t, weight) := tw in
  do textTriad <- mapM (getText L) t;
  do data <- match dget binned textTriad with
             | Some d => Ok d
             | None => do _ <- initCheck m; Ok (mkBin 0 (mkR m 0%Q 0%Q) [])
             end;
  match racc nadd t (inject_Z weight : carrier Qnum) (beffort data) with
  | (_, Raise e) => Raise e
  | (o, Ok _) =>
      do layers <- mapM (fun c => do il <- modifierToLayer L (cmod c); Ok (fst il)) t;
      Ok (dset binned textTriad (mkBin (bweight data + weight) o layers), (weightSum + weight)%Z)
  end.
Definition triad_bins (L : layout) (m : model Qnum) (ts : list (triad * Z)) : res (list (list cell * tbin) * Z) :=
  foldM (triad_bin L m) ts ([], 0%Z).
(** plot.py:157, 210 *)
Definition by_weight (a b : list cell * tbin) : bool := (bweight (snd b) <=? bweight (snd a))%Z.

(** plot.py:154-160: triads contributing to the given part of the weight *)
Definition qlt (a b : Q) : bool := negb (Qle_bool b a).
Definition top_step (bound : Q) (st : list (list cell * tbin) * Z) (data : list cell * tbin) :=
  if qlt (inject_Z (snd st)) bound then (fst st ++ [data], (snd st + bweight (snd data))%Z) else st.
Definition top_triads (cutoff : Q) (weightSum : Z) (l : list (list cell * tbin)) : list (list cell * tbin) :=
  fst (fold_left (top_step (inject_Z weightSum * cutoff)%Q) (sorted_by by_weight l) ([], 0%Z)).
(** plot.py:124-129: the sorter *)
Inductive sorter := ByWeight | ByEffort | ByCombined.
Definition sort_key (s : sorter) (weightSum : Z) (d : list cell * tbin) : Q :=
  match s with
  | ByWeight => inject_Z (bweight (snd d))
  | ByEffort => bin_effort (snd d)
  | ByCombined => (inject_Z (bweight (snd d)) / inject_Z weightSum * (bin_effort (snd d) * bin_effort (snd d)))%Q
  end.
Definition by_key (key : list cell * tbin -> Q) (reverse : bool) (a b : list cell * tbin) : bool :=
  if reverse then Qle_bool (key b) (key a) else Qle_bool (key a) (key b).
(** plot.py:167-168; [disp] is util.displayText, see RenderModel.  Joining fails
    for texts that are no strings. *)
Definition shown (disp : text -> res text) (k : list cell) : res text :=
  do l <- mapM (fun c => match c with CText t => disp t | COther => Raise TypeError end) k;
  Ok (List.concat l).
(** plot.py:122-170: triadfreq; yields the lines printed *)
Definition triadfreq (disp : text -> res text) (cutoff : Q) (reverse : bool) (s : sorter) (n : Z)
    (L : layout) (m : model Qnum) (ts : list (triad * Z)) : res (list (text * Z * Q)) :=
  do bw <- triad_bins L m ts;
  let (binned, weightSum) := bw : list (list cell * tbin) * Z in
  let top := sorted_by (by_key (sort_key s weightSum) reverse) (top_triads cutoff weightSum binned) in
  mapM (fun d => do t <- shown disp (fst d); Ok (t, bweight (snd d), bin_effort (snd d)))
       (if (0 <? n)%Z then limit_list top (Z.to_nat n) else top).

(** * plot.py:172-222: triadEffortData *)
(** plot.py:211-215; [p] are the points so far *)
Definition point_step (binWidth : Z) (st : list (Z * Q) * (Z * Q)) (d : Z * Q) : list (Z * Q) * (Z * Q) :=
  let '(p, (cw, ce)) := st in
  let cw' := (cw + fst d)%Z in
  let ce' := (ce + snd d * inject_Z (fst d))%Q in
  let add := match rev p with [] => true | (x, _) :: _ => (x + binWidth <=? cw')%Z end in
  (if add then p ++ [(cw', ce')] else p, (cw', ce')).
(** plot.py:203-217; the bins are given by weight and effort *)
Definition points (weightSum : Z) (bins : list (Z * Q)) : list (Z * Q) :=
  let '(p, c) := fold_left (point_step (weightSum / 200)) bins ([], (0%Z, 0%Q)) in p ++ [c].
(** plot.py:219-220: division of arrays yields nan or inf, not modelled further,
    when the divisor is zero. *)
Definition normalized (p : list (Z * Q)) : option (list (Q * Q)) :=
  let (cw, ce) := last p (0%Z, 0%Q) in
  if (cw =? 0)%Z || Qeq_bool ce 0 then None
  else Some (map (fun xy => (inject_Z (fst xy) / inject_Z cw, snd xy / ce)%Q) p).
Definition triadEffortData (L : layout) (m : model Qnum) (ts : list (triad * Z)) : res (option (list (Q * Q))) :=
  do bw <- triad_bins L m ts;
  Ok (normalized (points (snd bw) (map (fun d => (bweight (snd d), bin_effort (snd d))) (sorted_by by_weight (fst bw))))).

(** * stats.py:303-316: keyHeatmap.  [data] has the keys total and buttons. *)
Record heatmap := mkHeat { h_total : Z; h_buttons : list (string * Z) }.
Definition keyHeatmap (buttons : list (string * Z)) : res heatmap :=
  do b <- foldM (fun d kv => do _ <- assert_ (negb (mem (fst kv) ["total"; "buttons"])); Ok (dset d (fst kv) (snd kv)))
                (sorted_by (fun a b => (snd a <=? snd b)%Z) buttons) [];
  Ok (mkHeat (zsum (dvals buttons)) b).
(** render.py:266-269 *)
Definition key_heat (h : heatmap) : res (list (string * Q)) :=
  do maxHeat <- match dvals (h_buttons h) with [] => Raise ValueError | v :: vs => Ok (fold_left Z.max vs v) end;
  mapM (fun kv => do q <- truediv (snd kv) maxHeat; Ok (fst kv, q)) (h_buttons h).

(** * stats.py:320-369: layoutstats *)
(** stats.py:333-336 *)
Definition hand_step (fm : list (string * (direction * finger))) (st : list (direction * Z) * list ((direction * finger) * Z))
    (bc : string * Z) : res (list (direction * Z) * list ((direction * finger) * Z)) :=
  do hf <- getHandFinger fm (fst bc);
  Ok (cadd (fst st) (fst hf) (snd bc), cadd (snd st) hf (snd bc)).
(** Reading a missing key of a defaultdict adds it. *)
Definition touch {K} `{EqDec K} (d : list (K * Z)) (k : K) : list (K * Z) := dset d k (dget0 d k).
(** stats.py:340-349 *)
Definition alef : text := [0x627]%N.
Definition alefAbove : text := [0x627; 0x654]%N.
Definition alefBelow : text := [0x627; 0x655]%N.
Definition yahAbove : text := [0x64A; 0x654]%N.
Definition wawAbove : text := [0x648; 0x654]%N.
Definition letterWithHamza : list text := [alefAbove; alefBelow; yahAbove; wawAbove].
(** stats.py:350-355 *)
Definition group_step (L : layout) (combStats : list (comb * Z)) (g : list (text * Z)) (letter : text) : res (list (text * Z)) :=
  do mc <- lookup L letter;
  if eqb (fst mc) letter then Ok (cadd g letter (zsum (map (dget0 combStats) (snd mc)))) else Ok g.
Record lstats := mkLstats {
  ls_hands : list (direction * Z); ls_fingers : list ((direction * finger) * Z); ls_presses : Z;
  ls_asymmetry : Q; ls_hamzaImpact : Q; ls_hamzaOnAlef : Q }.
Definition layoutstats (fm : list (string * (direction * finger))) (L : layout)
    (buttons : list (string * Z)) (combStats : list (comb * Z)) : res lstats :=
  let buttonPresses := zsum (dvals buttons) in
  do hf <- foldM (hand_step fm) buttons ([], []);
  let (hands, fingers) := hf : list (direction * Z) * list ((direction * finger) * Z) in
  do l <- truediv (dget0 hands LEFT) buttonPresses;
  do r <- truediv (dget0 hands RIGHT) buttonPresses;
  do g <- foldM (group_step L combStats) (alef :: letterWithHamza) [];
  let combinations := zsum (dvals combStats) in
  do hamzaImpact <- truediv (zsum (map (dget0 g) letterWithHamza)) combinations;
  let x := (dget0 g alefAbove + dget0 g alefBelow)%Z in
  do hamzaOnAlef <- truediv x (x + dget0 g alef);
  Ok (mkLstats (touch (touch hands LEFT) RIGHT) fingers buttonPresses (l - r)%Q hamzaImpact hamzaOnAlef).

(** * stats.py:371-394: latinImeDict *)
(** [- round (log_1.15 (count/total))] for 0 < count <= total: the first j with
    count/total >= 1.15^-(j + 1/2), here with both sides squared.  The code uses
    float logarithms. *)
Fixpoint neg_log115 (fuel j : nat) (count total : Z) : nat :=
  match fuel with
  | O => j
  | S fuel' =>
      let e := (2 * Z.of_nat j + 1)%Z in
      if (total * total * 20 ^ e <=? count * count * 23 ^ e)%Z then j else neg_log115 fuel' (S j) count total
  end.
(** stats.py:378-384.  [math.log] raises ValueError for 0. *)
Definition f_value (count total : Z) : res Z :=
  if (total =? 0)%Z then Raise ZeroDivisionError
  else if (count <=? 0)%Z then Raise ValueError
  else Ok (255 - Z.of_nat (neg_log115 (Z.to_nat (8 * (Z.log2 total + 1))) 0 count total))%Z.
(** stats.py:391-394 *)
Definition latinIme (words : list (text * Z)) : res (list (text * Z)) :=
  let total := zsum (dvals words) in
  mapM (fun wc => do f <- f_value (snd wc) total; Ok (fst wc, f))
       (sorted_by (fun a b => (snd b <=? snd a)%Z) words).

(** * stats.py:396-406: corpusStats *)
Definition corpusStats (s : allstats) : Z * Z :=
  (zsum (dvals (s_combs (a_simple s))), zsum (dvals (w_words (a_words s)))).
