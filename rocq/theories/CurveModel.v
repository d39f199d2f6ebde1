(** Model of lulua/plot.py:224-292 (triadEffortPlot), lulua/stats.py:233-238
    (unpickleAll) and lulua/text.py:43-49 (iterchar). *)
From Coq Require Import QArith.
From Verif Require Import Base TextModel FilterModel.
Close Scope Q_scope.
Open Scope string_scope.
Open Scope list_scope.

(** * stats.py:233-238: unpickleAll *)
(** What [pickle.load] does with the rest of a file: an object and what follows it,
    EOFError, or another exception *)
Inductive loaded (A : Type) := Loaded (x : A) (rest : list N) | AtEnd | Broken (e : exn).
Arguments Loaded {A}. Arguments AtEnd {A}. Arguments Broken {A}.
Section Unpickle.
  Context {A : Type}.
  Variable load : list N -> loaded A.
  (** stats.py:233-238; the loop goes on until EOFError *)
  Fixpoint unpickle_loop (fuel : nat) (fd : list N) : gen A :=
    match fuel with
    | O => ([], Some OutOfFuel)
    | S fuel' =>
        match load fd with
        | AtEnd => ([], None)
        | Broken e => ([], Some e)
        | Loaded x rest => let (xs, e) := unpickle_loop fuel' rest in (x :: xs, e)
        end
    end.
  Definition unpickleAll (fd : list N) : gen A := unpickle_loop (S (List.length fd)) fd.
  (** [list (unpickleAll (fd))], plot.py:244 *)
  Definition unpickle_list (fd : list N) : res (list A) :=
    match unpickleAll fd with (xs, None) => Ok xs | (_, Some e) => Raise e end.
End Unpickle.

(** * text.py:43-49: iterchar *)
Section Iterchar.
  Context {F : Type}.
  (** [fd.read (n)] *)
  Variable read : F -> nat -> res (text * F).
  Variable batchsize : nat.
  Fixpoint iterchar (fuel : nat) (fd : F) : gen N :=
    match fuel with
    | O => ([], Some OutOfFuel)
    | S fuel' =>
        match read fd batchsize with
        | Raise e => ([], Some e)
        | Ok ([], _) => ([], None)
        | Ok (c, fd') => let (cs, e) := iterchar fuel' fd' in (c ++ cs, e)
        end
    end.
End Iterchar.

(** * plot.py:224-292: triadEffortPlot *)
(** An object of triadEffortData (plot.py:222); of the layout only its name is used *)
Record curve := mkCurve { cu_name : string; cu_points : list (Q * Q) }.
(** What [p.line] draws *)
Record pline := mkLine { ln_points : list (Q * Q); ln_color : string }.
Definition range := (Q * Q)%type.
Record plot := mkPlot { pl_lines : list (string * pline); pl_visible : list (list string); pl_ranges : list (range * range) }.
(** bokeh's palettes Set3: one for every number of colours from 3 to 12 *)
Definition set3 : list string :=
  ["#8dd3c7"; "#ffffb3"; "#bebada"; "#fb8072"; "#80b1d3"; "#fdb462"; "#b3de69"; "#fccde5"; "#d9d9d9"; "#bc80bd"; "#ccebc5"; "#ffed6f"].
Definition Set3 (n : nat) : option (list string) := if Nat.leb 3 n && Nat.leb n 12 then Some (firstn n set3) else None.
Section Plot.
  Variable palette : nat -> option (list string).
  (** plot.py:247-251: one line *)
  Definition add_line (lines : list (string * pline)) (oc : curve * string) : res (list (string * pline)) :=
    do _ <- assert_ (negb (dhas lines (cu_name (fst oc))));
    Ok (dset lines (cu_name (fst oc)) (mkLine (cu_points (fst oc)) (snd oc))).
  (** plot.py:264-273: presets; the first shows all *)
  Definition presets (lines : list (string * pline)) : list (list string) :=
    [dkeys lines; ["ar-asmo663"; "ar-linux"; "ar-osx"]; ["ar-lulua"; "ar-ergoarabic"; "ar-malas"; "ar-linux"; "ar-osx"]].
  Definition preset_ranges : list (range * range) :=
    [((0, 1), (0, 1)); ((0, 5 # 10), (0, 4 # 10)); ((0, 5 # 10), (0, 4 # 10))]%Q.
  (** plot.py:245-251, 264-277 *)
  Definition triadEffortPlot (data : list curve) : res plot :=
    do colors <- of_opt KeyError (palette (List.length data));
    do lines <- foldM add_line (combine data colors) [];
    Ok (mkPlot lines (presets lines) preset_ranges).
  (** plot.py:240-241, 274: what the reader sees at first *)
  Record view := mkView { vw_shown : list (string * bool); vw_range : range * range }.
  Definition initial (p : plot) : view := mkView (map (fun kl => (fst kl, true)) (pl_lines p)) ((0, 1), (0, 1))%Q.
  (** plot.py:279-287: the script run on a click on button [active] *)
  Definition click (p : plot) (active : nat) (v : view) : option view :=
    match nth_error (pl_visible p) active, nth_error (pl_ranges p) active with
    | Some names, Some r => Some (mkView (map (fun kl => (fst kl, mem (fst kl) names)) (pl_lines p)) r)
    | _, _ => None
    end.
End Plot.
(** gen.sh:5: the layouts of the report, in this order (gen.sh:267-270) *)
Definition gen_layouts : list string :=
  ["ar-lulua"; "ar-asmo663"; "ar-linux"; "ar-malas"; "ar-phonetic"; "ar-osman"; "ar-khorshid"; "ar-osx"; "ar-idlebi"; "ar-alramly";
   "ar-ergoarabic"; "ar-qtaish"].
