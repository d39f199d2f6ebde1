(** Model of the statistics classes in lulua/stats.py:34-252. *)
From Verif Require Import Base LayoutModel WriterModel.
Open Scope string_scope.
Open Scope list_scope.

(** What [Stats.process] is called with: a ButtonCombination, a SkipEvent, or
    an object of another type. *)
Inductive sevent := SComb (c : comb) | SSkip (ch : N) | SOther.
(** text.py: [for match, event in w.type(fd): for s in stats: s.process(event)] *)
Definition ev_obj (e : event) : sevent := match e with EMatch _ c => SComb c | ESkip ch => SSkip ch end.

(** stats.py:34-48: updateDictOp(a, b, op) for dictionaries whose values all
    have the same type; [f x y] is what happens to an existing value x of a and
    the value y of b.  The type based dispatch of the Python code is resolved by
    choosing [f]: addition for counters, again [updateDictOp] for nested
    dictionaries.  Aliasing is modelled separately in HeapModel.v. *)
Definition updateDictOp {K V} `{EqDec K} (f : V -> V -> V) (a b : list (K * V)) : list (K * V) :=
  fold_left (fun a kv => match dget a (fst kv) with
                         | None => dset a (fst kv) (snd kv)
                         | Some x => dset a (fst kv) (f x (snd kv))
                         end) b a.
Definition updateCounter {K} `{EqDec K} : list (K * Z) -> list (K * Z) -> list (K * Z) := updateDictOp Z.add.
Definition updateNested {K L} `{EqDec K} `{EqDec L} : list (K * list (L * Z)) -> list (K * list (L * Z)) -> list (K * list (L * Z)) :=
  updateDictOp updateCounter.

(** [d[k][n] += 1] for a dict of defaultdicts *)
Definition nested_inc {K L} `{EqDec K} `{EqDec L} (d : list (K * list (L * Z))) (k : K) (n : L) : res (list (K * list (L * Z))) :=
  do inner <- dgetM d k; Ok (dset d k (cinc inner n)).

(** * SimpleStats, stats.py:110-142 *)
Record simple := mkSimple { s_buttons : list (string * Z); s_combs : list (comb * Z); s_unknown : list (N * Z) }.
Definition simple_init : simple := mkSimple [] [] [].
Definition simple_process (s : simple) (e : sevent) : res simple :=
  match e with
  | SSkip ch => Ok (mkSimple (s_buttons s) (s_combs s) (cinc (s_unknown s) ch))
  | SComb c => Ok (mkSimple (fold_left cinc (comb_iter c) (s_buttons s)) (cinc (s_combs s) c) (s_unknown s))
  | SOther => Raise ValueError
  end.
Definition simple_update (a b : simple) : simple :=
  mkSimple (updateCounter (s_buttons a) (s_buttons b)) (updateCounter (s_combs a) (s_combs b)) (updateCounter (s_unknown a) (s_unknown b)).

(** * RunlenStats, stats.py:59-108 *)
Record runlen := mkRunlen {
  r_lastHand : option direction; r_hand : list (direction * list (nat * Z)); r_curHand : nat;
  r_lastFinger : option (direction * finger); r_finger : list ((direction * finger) * list (nat * Z)); r_curFinger : nat }.
(** stats.py:65-74 *)
Definition all_directions : list direction := [LEFT; RIGHT].
Definition all_fingers : list finger := [LITTLE; RING; MIDDLE; INDEX; THUMB].
Definition runlen_init : runlen :=
  mkRunlen None (map (fun x => (x, [])) all_directions) 0
           None (map (fun p => (p, [])) (list_prod all_directions all_fingers)) 0.
(** [len(event.buttons) == 1; first(event.buttons)] *)
Definition the_button (c : comb) : res string :=
  do _ <- assert_ (Nat.eqb (length (elems (cbtn c))) 1); first (elems (cbtn c)).
(** stats.py:81-105 *)
Definition runlen_process (fm : list (string * (direction * finger))) (s : runlen) (e : sevent) : res runlen :=
  match e with
  | SComb c =>
      do b <- the_button c;
      do hf <- getHandFinger fm b;
      let (thisHand, thisFinger) := hf in
      do h <- match r_lastHand s with
              | Some l => if eqb thisHand l then Ok (r_hand s, r_curHand s)
                          else do d <- nested_inc (r_hand s) l (r_curHand s); Ok (d, 0)
              | None => Ok (r_hand s, r_curHand s)
              end;
      let fingerKey := (thisHand, thisFinger) in
      do f <- match r_lastFinger s with
              | Some l => if eqb fingerKey l then Ok (r_finger s, r_curFinger s)
                          else do d <- nested_inc (r_finger s) fingerKey (r_curFinger s); Ok (d, 0)
              | None => Ok (r_finger s, r_curFinger s)
              end;
      Ok (mkRunlen (Some thisHand) (fst h) (S (snd h)) (Some fingerKey) (fst f) (S (snd f)))
  | SSkip _ => Ok (mkRunlen None (r_hand s) 0 None (r_finger s) 0)
  | SOther => Raise ValueError
  end.
(** stats.py:107-108 *)
Definition runlen_update (a b : runlen) : runlen :=
  mkRunlen (r_lastHand a) (updateNested (r_hand a) (r_hand b)) (r_curHand a) (r_lastFinger a) (r_finger a) (r_curFinger a).

(** * TriadStats, stats.py:144-188 *)
Record triads := mkTriads { t_cur : list comb; t_triads : list (list comb * Z); t_ignored : bset }.
(** stats.py:155-161; [kb] are the names of the buttons of the keyboard *)
Definition triads_init (kb : list string) : res triads :=
  do ign <- mapM (kfind kb) ["Fl_space"; "Fr_space"; "CD_ret"; "Cl_tab"];
  Ok (mkTriads [] [] (frozenset ign)).
(** stats.py:168-185 *)
Definition triads_process (s : triads) (e : sevent) : res triads :=
  match e with
  | SSkip _ => Ok (mkTriads [] (t_triads s) (t_ignored s))
  | SComb c =>
      do btn <- the_button c;
      if mem btn (elems (t_ignored s)) then Ok s
      else
        let t1 := t_cur s ++ [c] in
        do t2 <- (if Nat.ltb 3 (length t1)
                  then do _ <- assert_ (Nat.eqb (length (tl t1)) 3); Ok (tl t1)
                  else Ok t1);
        Ok (mkTriads t2 (if Nat.eqb (length t2) 3 then cinc (t_triads s) t2 else t_triads s) (t_ignored s))
  | SOther => Raise ValueError
  end.
Definition triads_update (a b : triads) : triads :=
  mkTriads (t_cur a) (updateCounter (t_triads a) (t_triads b)) (t_ignored a).

(** * WordStats, stats.py:190-229 *)
Record words := mkWords { w_words : list (text * Z); w_cur : text }.
Definition words_init : words := mkWords [] [].
(** stats.py:216-224: one character; [letter] is "category is Lo or Mn" *)
Definition words_char (letter : N -> bool) (s : words) (ch : N) : words :=
  if letter ch then mkWords (w_words s) (w_cur s ++ [ch])
  else match w_cur s with
       | [] => s
       | _ => mkWords (cinc (w_words s) (w_cur s)) []
       end.
(** stats.py:210-226; iterating over a layer value that is no string raises
    TypeError (only None and numbers occur in YAML besides strings). *)
Definition words_process (letter : N -> bool) (L : layout) (s : words) (e : sevent) : res words :=
  match e with
  | SSkip _ => Ok (mkWords (w_words s) [])
  | SComb c =>
      do t <- getText L c;
      match t with
      | CText t => Ok (fold_left (words_char letter) t s)
      | COther => Raise TypeError
      end
  | SOther => Raise ValueError
  end.
Definition words_update (a b : words) : words := mkWords (updateCounter (w_words a) (w_words b)) (w_cur a).
(** stats.py:217-218 with [unicodedata.category] as a parameter *)
Definition is_letter (category : N -> string) (ch : N) : bool := mem (category ch) ["Lo"; "Mn"].

(** * All statistics of one run, stats.py:231-252 *)
Record allstats := mkStats { a_simple : simple; a_runlen : runlen; a_triads : triads; a_words : words }.
(** stats.py:240-244 *)
Definition makeCombined (kb : list string) : res allstats :=
  do t <- triads_init kb; Ok (mkStats simple_init runlen_init t words_init).
Definition stats_update (a b : allstats) : allstats :=
  mkStats (simple_update (a_simple a) (a_simple b)) (runlen_update (a_runlen a) (a_runlen b))
          (triads_update (a_triads a) (a_triads b)) (words_update (a_words a) (a_words b)).
(** stats.py:246-252: combine, on the unpickled objects *)
Definition combine_stats (kb : list string) (l : list allstats) : res allstats :=
  do c <- makeCombined kb; Ok (fold_left stats_update l c).
(** Feeding events to all four objects, as text.py does. *)
Definition stats_process fm letter L (s : allstats) (e : sevent) : res allstats :=
  do a <- simple_process (a_simple s) e;
  do r <- runlen_process fm (a_runlen s) e;
  do t <- triads_process (a_triads s) e;
  do w <- words_process letter L (a_words s) e;
  Ok (mkStats a r t w).
