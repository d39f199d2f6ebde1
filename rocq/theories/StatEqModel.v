(** Model of comparing statistics with == (stats.py:76-79, 122-127, 163-166, 205-208).
    Objects of another class (NotImplemented) are left out. *)
From Verif Require Import Base LayoutModel StatsModel.
Open Scope list_scope.

(** dict.__eq__: as many keys, and for every key of the first an equal value in the second *)
Definition pydict_eqb {K V} `{EqDec K} (e : V -> V -> bool) (d d' : list (K * V)) : bool :=
  Nat.eqb (List.length d) (List.length d') &&
  forallb (fun kv => match dget d' (fst kv) with Some v => e (snd kv) v | None => false end) d.
(** stats.py:122-127 *)
Definition simple_eqb (a b : simple) : bool :=
  pydict_eqb Z.eqb (s_buttons a) (s_buttons b) && pydict_eqb Z.eqb (s_combs a) (s_combs b) && pydict_eqb Z.eqb (s_unknown a) (s_unknown b).
(** stats.py:76-79 *)
Definition runlen_eqb (a b : runlen) : bool := pydict_eqb (pydict_eqb Z.eqb) (r_hand a) (r_hand b).
(** stats.py:163-166 *)
Definition triads_eqb (a b : triads) : bool := pydict_eqb Z.eqb (t_triads a) (t_triads b).
(** stats.py:205-208 *)
Definition words_eqb (a b : words) : bool := pydict_eqb Z.eqb (w_words a) (w_words b).
(** Comparing the dictionaries of all four, stats.py:240-244 *)
Definition stats_eqb (a b : allstats) : bool :=
  simple_eqb (a_simple a) (a_simple b) && runlen_eqb (a_runlen a) (a_runlen b) && triads_eqb (a_triads a) (a_triads b) && words_eqb (a_words a) (a_words b).
