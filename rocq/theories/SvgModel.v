(** Model of the SVG picture of a layout: heat map, groups, classes and style sheets. *)
From Coq Require Import QArith.
From Verif Require Import Base LayoutModel StatsModel PlotModel RenderModel.
Close Scope Q_scope.
Open Scope string_scope.
Open Scope list_scope.

(** * render.py:266-273: renderSvg.  [h] is the value of --heatmap (render.py:587-592,
    yamlload), [None] without it.  What [keyHeatmap] writes has two keys and is never
    empty, that is, always true. *)
Definition keyHeat (h : option heatmap) : res (list (string * Q)) :=
  match h with None => Ok [] | Some h => key_heat h end.
(** render.py:58, 109: [self.keyHighlight.get (btn.name, 0)] *)
Definition highlight (k : list (string * Q)) (b : string) : Q := match dget k b with Some q => q | None => 0%Q end.
Definition renderSvg (s : settings) (width : string -> Q) (L : layout) (fm : list (string * (direction * finger)))
    (marked : string -> bool) (display : text -> res text) (rows : list (list string * list string)) (h : option heatmap) :
    res (list drawn * (Q * Q)) :=
  do k <- keyHeat h; render s width L fm marked (highlight k) display rows.

(** * The document: elements with name, classes and what they show *)
Inductive shape :=
  | Container
  | Rect (r : rect)
  | Line (p q : Q * Q)
  | Circle (cx cy r : Q)
  | Span (x y : Q) (t : text).      (* text of a tspan, at the place of its text element *)
Inductive tree := Node (tag : string) (classes : list string) (opacity : option Q) (what : shape) (kids : list tree).
Definition group (classes : list string) (kids : list tree) : tree := Node "g" classes None Container kids.
(** render.py:98: [finger.name.lower ()], [hand.name.lower ()] *)
Definition finger_class (f : finger) : string :=
  match f with LITTLE => "finger-little" | RING => "finger-ring" | MIDDLE => "finger-middle" | INDEX => "finger-index" | THUMB => "finger-thumb" end.
Definition hand_class (h : direction) : string := match h with LEFT => "hand-left" | RIGHT => "hand-right" end.
(** render.py:96-99, 157-165 *)
Definition svg_shadow (d : drawn) : list tree :=
  match d_shadow d with
  | Some (r, (h, f)) => [Node "rect" [finger_class f; hand_class h] None (Rect r) []]
  | None => []
  end.
(** render.py:176-198 *)
Definition svg_marker (d : drawn) : list tree :=
  match d_marker d with
  | [(p, q); (p', q')] => [group ["marker"] [Node "line" ["shadow"] None (Line p q) []; Node "line" [] None (Line p' q') []]]
  | _ => []
  end.
(** render.py:101-107 *)
Definition svg_cap (d : drawn) : list tree :=
  Node "rect" (if d_unused d then ["unused"] else []) None (Rect (d_cap d)) [] :: svg_marker d.
(** render.py:109-111, 200-208 *)
Definition svg_highlight (d : drawn) : list tree :=
  match d_highlight d with
  | Some (o, cx, cy, r) => [Node "circle" [] (Some o) (Circle cx cy r) []]
  | None => []
  end.
(** render.py:217-220, the third component *)
Definition layer_class (i : nat) : string :=
  match i with 0 => "layer-1" | 1 => "layer-2" | 2 => "layer-3" | _ => "layer-4" end.
(** render.py:223-251: one label, l_x and l_y being where the text is *)
Definition svg_text (l : label) : list tree :=
  let extra := if l_shadow l then ["shadow"] else [] in
  let span := Node "tspan" [if l_control l then "controlchar" else layer_class (l_layer l)] None (Span (l_x l) (l_y l) (l_text l)) [] in
  (if l_control l then [Node "rect" ("controllabel" :: extra) None (Rect (mkRect (l_x l - 40) (l_y l - 40) 80 50)) []] else [])
  ++ [Node "text" ("label" :: extra) None Container [span]].
(** render.py:113-117, 210-252 *)
Definition svg_label (d : drawn) : tree :=
  group (if d_modifier d then ["modifier"] else []) (flat_map svg_text (d_labels d)).
(** render.py:66-80, 119 *)
Definition svg_picture (ds : list drawn) : tree :=
  group [] [ group ["cap-shadow"] (flat_map svg_shadow ds);
             group ["cap"] (flat_map svg_cap ds);
             group ["highlight"] (flat_map svg_highlight ds);
             group ["label"] (map svg_label ds) ].
(** render.py:273, 299: without defs, which is not drawn *)
Definition document (ds : list drawn) : tree := Node "svg" [] None Container [svg_picture ds].

(** * Style sheets *)
(** Name of the element, if given, and classes *)
Record simple := mkSimple { sel_tag : option string; sel_classes : list string }.
(** Descendant combinator only; the last one is the element itself *)
Definition selector := list simple.
Inductive value := Keyword (s : string) | Px (q : Q) | Percent (q : Q) | Number (q : Q).
Record rule := mkRule { r_selectors : list selector; r_decls : list (string * value) }.
Definition cls (c : string) : simple := mkSimple None [c].
Definition cls2 (c c' : string) : simple := mkSimple None [c; c'].
Definition tagged (t : string) : simple := mkSimple (Some t) [].
Definition tagged1 (t c : string) : simple := mkSimple (Some t) [c].
Definition kw (p v : string) : string * value := (p, Keyword v).
(** render-svg.css:2-22, the same in render-svg-print.css:4-24 *)
Definition css_head : list rule := [
  mkRule [[tagged "svg"]; [cls "label"]] [kw "font-family" "IBM Plex Sans Arabic"; ("font-size", Px 90); ("font-weight", Number 400)];
  mkRule [[cls "unused"]] [("opacity", Number (6#10))];
  mkRule [[cls "label"; cls "layer-1"]] [];
  mkRule [[cls "modifier"; cls "label"; cls "layer-1"]] [("font-size", Percent 80)];
  mkRule [[cls "label"; cls "layer-2"]; [cls "label"; cls "layer-3"]; [cls "label"; cls "layer-4"]] [("font-size", Percent 80); ("font-weight", Number 100)];
  mkRule [[cls "label"; cls "controlchar"]] [("font-size", Percent 40); kw "font-family" "sans-serif"]].
Definition finger_rule (f c : string) : rule := mkRule [[cls "cap-shadow"; tagged1 "rect" f]] [kw "fill" c].
(** render-svg.css *)
Definition css_screen : list rule := css_head ++ [
  mkRule [[cls "cap"; tagged "rect"]] [kw "fill" "#eee8d5"];
  mkRule [[cls "highlight"; tagged "circle"]] [kw "fill" "#dc322f"; kw "filter" "blur(30px)"];
  finger_rule "finger-little" "#dc322f";
  finger_rule "finger-ring" "#268bd2";
  finger_rule "finger-middle" "#d33682";
  finger_rule "finger-index" "#6c71c4";
  finger_rule "finger-thumb" "#2aa198";
  mkRule [[cls "label"]] [kw "fill" "#657b83"];
  mkRule [[cls2 "label" "shadow"]] [kw "fill" "#fdf6e3"];
  mkRule [[cls "controllabel"]] [kw "stroke" "#657b83"; kw "fill" "none"];
  mkRule [[cls2 "controllabel" "shadow"]] [kw "stroke" "#fdf6e3"; kw "fill" "none"];
  mkRule [[cls "marker"; tagged "line"]] [kw "stroke" "#fdf6e3"];
  mkRule [[cls "marker"; tagged1 "line" "shadow"]] [kw "stroke" "#93a1a1"]].
(** render-svg-print.css *)
Definition css_print : list rule := css_head ++ [
  mkRule [[cls "cap"; tagged "rect"]] [kw "fill" "white"; kw "stroke" "gray"; ("stroke-width", Number 2)];
  mkRule [[cls "highlight"; tagged "circle"]] [];
  mkRule (map (fun f => [cls "cap-shadow"; tagged1 "rect" f]) ["finger-little"; "finger-ring"; "finger-middle"; "finger-index"; "finger-thumb"]) [kw "fill" "white"];
  mkRule [[cls "label"]] [kw "fill" "black"];
  mkRule [[cls2 "label" "shadow"]] [kw "fill" "white"];
  mkRule [[cls "controllabel"]] [kw "stroke" "black"; kw "fill" "none"];
  mkRule [[cls2 "controllabel" "shadow"]] [kw "stroke" "white"; kw "fill" "none"];
  mkRule [[cls "marker"; tagged "line"]] [kw "stroke" "gray"];
  mkRule [[cls "marker"; tagged1 "line" "shadow"]] [kw "stroke" "white"]].
