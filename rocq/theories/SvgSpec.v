(** How a style sheet applies to a document (CSS 2.1: selectors 5, cascade 6.4, inheritance 6.2) and
    how the pictures of layouts look. *)
From Coq Require Import QArith.
From Verif Require Import Base LayoutModel RenderModel SvgModel.
Close Scope Q_scope.
Open Scope string_scope.
Open Scope list_scope.

(** An element and its ancestors, from the outermost one: names and classes *)
Definition path := list (string * list string).
Definition simple_ok (s : simple) (e : string * list string) : bool :=
  match sel_tag s with Some t => String.eqb t (fst e) | None => true end && forallb (fun c => existsb (String.eqb c) (snd e)) (sel_classes s).
(** The ancestors of the element contain some which match, in this order. *)
Fixpoint within (sel : selector) (p : path) : bool :=
  match sel, p with
  | [], _ => true
  | _, [] => false
  | s :: sel', e :: p' => (simple_ok s e && within sel' p') || within sel p'
  end.
Definition selects (sel : selector) (p : path) : bool :=
  match rev sel, rev p with
  | s :: anc, e :: p' => simple_ok s e && within (rev anc) (rev p')
  | _, _ => false
  end.
(** Number of classes and, less important, of names *)
Definition specificity (sel : selector) : nat * nat :=
  (list_sum (map (fun s => List.length (sel_classes s)) sel), list_sum (map (fun s => match sel_tag s with Some _ => 1 | None => 0 end) sel)).
Definition at_least (a b : nat * nat) : bool := (fst b <? fst a)%nat || ((fst b =? fst a)%nat && (snd b <=? snd a)%nat).
(** All declarations that apply, in the order of the sheet *)
Definition applying (css : list rule) (p : path) (prop : string) : list ((nat * nat) * value) :=
  flat_map (fun r => flat_map (fun sel => if selects sel p then
      flat_map (fun d => if String.eqb (fst d) prop then [(specificity sel, snd d)] else []) (r_decls r) else []) (r_selectors r)) css.
(** The most specific one wins, the last one of several *)
Definition winner (l : list ((nat * nat) * value)) : option value :=
  option_map snd (fold_left (fun best x => match best with Some b => if at_least (fst x) (fst b) then Some x else Some b | None => Some x end) l None).
Definition declared (css : list rule) (p : path) (prop : string) : option value := winner (applying css p prop).

Record style := mkStyle { fill : string; stroke : string; fontsize : Q; weight : Q; family : string; opacity : Q }.
Definition initial : style := mkStyle "black" "none" 16 400 "" 1.
Definition keyword (o : option value) (d : string) : string := match o with Some (Keyword s) => s | _ => d end.
Definition number (o : option value) (d : Q) : Q := match o with Some (Number q) => q | _ => d end.
(** [parent] is the style of the parent.  All of these are inherited except opacity, which applies to
    the element with everything inside of it; the attribute [own] comes before the style sheet. *)
Definition computed (css : list rule) (parent : style) (p : path) (own : option Q) : style :=
  let the := declared css p in
  mkStyle (keyword (the "fill") (fill parent)) (keyword (the "stroke") (stroke parent))
    (match the "font-size" with Some (Px q) => q | Some (Percent q) => Qred (fontsize parent * q / 100) | _ => fontsize parent end)
    (number (the "font-weight") (weight parent)) (keyword (the "font-family") (family parent))
    (Qred (opacity parent * match own with Some o => o | None => number (the "opacity") 1 end)).
(** What is painted, in this order *)
Fixpoint painted (css : list rule) (parent : style) (above : path) (t : tree) : list (shape * style) :=
  match t with
  | Node tag classes own what kids =>
      let p := above ++ [(tag, classes)] in
      let st := computed css parent p own in
      match what with Container => [] | _ => [(what, st)] end ++ flat_map (painted css st p) kids
  end.
Definition looks (css : list rule) (t : tree) : list (shape * style) := painted css initial [] t.

(** * The pictures *)
(** Colours of a style sheet *)
Record colours := mkColours {
  c_finger : finger -> string; c_cap : string; c_capline : string; c_heat : string;
  c_text : string; c_textshadow : string; c_marker : string; c_markershadow : string }.
Definition sans : string := "IBM Plex Sans Arabic".
(** Without text only fill, stroke and opacity matter. *)
Definition plain (f s : string) (o : Q) : style := mkStyle f s 90 400 sans o.
Definition look_shadow (c : colours) (d : drawn) : list (shape * style) :=
  match d_shadow d with Some (r, (_, f)) => [(Rect r, plain (c_finger c f) "none" 1)] | None => [] end.
Definition look_cap (c : colours) (d : drawn) : list (shape * style) :=
  (Rect (d_cap d), plain (c_cap c) (c_capline c) (if d_unused d then 3#5 else 1)%Q) ::
  match d_marker d with
  | [(p, q); (p', q')] => [(Line p q, plain "black" (c_markershadow c) 1); (Line p' q', plain "black" (c_marker c) 1)]
  | _ => []
  end.
Definition look_heat (c : colours) (d : drawn) : list (shape * style) :=
  match d_highlight d with Some (o, cx, cy, r) => [(Circle cx cy r, plain (c_heat c) "none" (Qred o))] | None => [] end.
(** The first layer is large and normal, the others are smaller and thin, arrows are
    smaller but normal; names of control characters are small, in another font, with a frame. *)
Definition look_text (c : colours) (arrow : bool) (l : label) : list (shape * style) :=
  let col := if l_shadow l then c_textshadow c else c_text c in
  if l_control l then
    [(Rect (mkRect (l_x l - 40) (l_y l - 40) 80 50), plain "none" col 1);
     (Span (l_x l) (l_y l) (l_text l), mkStyle col "none" 36 400 "sans-serif" 1)]
  else
    [(Span (l_x l) (l_y l) (l_text l),
      mkStyle col "none" (if (l_layer l =? 0)%nat && negb arrow then 90 else 72)%Q (if (l_layer l =? 0)%nat then 400 else 100)%Q sans 1)].
(** Shadows are behind everything, then come caps, heat and texts. *)
Definition look (c : colours) (ds : list drawn) : list (shape * style) :=
  flat_map (look_shadow c) ds ++ flat_map (look_cap c) ds ++ flat_map (look_heat c) ds ++
  flat_map (fun d => flat_map (look_text c (d_modifier d)) (d_labels d)) ds.
Definition solarized : colours := mkColours
  (fun f => match f with LITTLE => "#dc322f" | RING => "#268bd2" | MIDDLE => "#d33682" | INDEX => "#6c71c4" | THUMB => "#2aa198" end)
  "#eee8d5" "none" "#dc322f" "#657b83" "#fdf6e3" "#fdf6e3" "#93a1a1".
Definition outlined : colours := mkColours (fun _ => "white") "white" "gray" "black" "black" "white" "gray" "white".
