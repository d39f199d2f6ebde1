(** Vocabulary for C90: typing a text again with the layout the optimizer wrote. *)
From Coq Require Import QArith.
From Verif Require Import Base LayoutModel LayoutSpec WriterModel WriterSpec StatsModel StatsSpec CarpalxModel CarpalxSpec OptModel OptSpec.
Close Scope Q_scope.
Open Scope string_scope.
Open Scope list_scope.

(** What `lulua-write` leaves in the triad statistics of a text: the text is typed
    (writer.py:99-170) and every event processed (stats.py:168-185). *)
Definition typed_triads (fm : list (string * (direction * finger))) (kb : list string) (ls : list layer) (t : text) : res (list (triad * Z)) :=
  do s0 <- triads_init kb;
  do s <- foldM triads_process (map ev_obj (fst (fst (type_text fm (layout_new ls) None t)))) s0;
  Ok (t_triads s).
(** The effort of these triads: their weighted mean; all of them have one. *)
Definition in_Q (ts : list (triad * Z)) : list (triad * Q) := map (fun tv => (fst tv, inject_Z (snd tv))) ts.
Definition effort_of (m : model Qnum) (ts : list (triad * Z)) (e : Q) : Prop :=
  Forall (fun tv => scoreQ m (fst tv) <> None) ts /\ (e == mean scoreQ m (in_Q ts))%Q.

(** One key, with some modifier, types [u]. *)
Definition types (ls : list layer) (c : comb) (u : text) : Prop :=
  (exists b, cbtn c = frozenset [b]) /\ getText (layout_new ls) c = Ok (CText u).
Definition space_keys : list string := ["Fl_space"; "Fr_space"; "CD_ret"; "Cl_tab"].
(** There is nothing to choose: at most one combination types [u], or all of them
    are keys the triads ignore. *)
Definition settled (ls : list layer) (u : text) : Prop :=
  (exists c, forall c', types ls c' u -> c' = c) \/
  (forall c', types ls c' u -> incl (elems (cbtn c')) space_keys).
(** Texts that are typed on the way through [t]. *)
Definition used (ls : list layer) (t : text) (u : text) : Prop := exists toks, greedy ls t toks /\ In (TMatch u) toks.
(** One modifier per layer, every text on one key only or on ignored keys only. *)
Definition plain (ls : list layer) : Prop :=
  Forall (fun l => exists md, lmods l = [md]) ls /\
  forall k k' u, says ls k (CText u) -> says ls k' (CText u) -> k = k' \/ (In (snd k) space_keys /\ In (snd k') space_keys).
