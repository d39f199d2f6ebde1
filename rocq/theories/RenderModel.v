(** Model of the SVG renderer in lulua/render.py:37-259 and of lulua/util.py:74-98.
    Coordinates are exact rationals; svgwrite objects are records. *)
From Coq Require Import QArith.
From Verif Require Import Base LayoutModel WriterModel.
Close Scope Q_scope.
Open Scope string_scope.
Open Scope list_scope.

(** * util.py:74-98: displayText.  Parameters: unicodedata.combining (_) != 0,
    category (_) == 'Cf', name (_). *)
Section Display.
  Variables (combining is_cf : N -> bool) (uname : N -> option text).
  (** \W in a character name *)
  Definition nonword (c : N) : bool :=
    negb (((48 <=? c) && (c <=? 57)) || ((65 <=? c) && (c <=? 90)) || ((97 <=? c) && (c <=? 122)) || (c =? 95))%N.
  Definition is_ci (c upper : N) : bool := ((c =? upper) || (c =? upper + 32))%N.
  (** [re.compile ('\WTO\W', re.I).sub (' ', _)] *)
  Fixpoint sub_to (t : text) : text :=
    match t with
    | [] => []
    | a :: t1 =>
        match t1 with
        | b :: c :: d :: t' => if nonword a && is_ci b 84 && is_ci c 79 && nonword d then 32%N :: sub_to t' else a :: sub_to t1
        | _ => a :: sub_to t1
        end
    end.
  (** [_.split (' ')] *)
  Fixpoint split_sp (t : text) : list text :=
    match t with
    | [] => [[]]
    | c :: t' => if N.eqb c 32 then [] :: split_sp t' else
        match split_sp t' with w :: ws => (c :: w) :: ws | [] => [[c]] end
    end.
  Definition initials (ws : list text) : res text :=
    mapM (fun w => match w with c :: _ => Ok c | [] => Raise IndexError end) ws.
  (** util.py:84-86 *)
  Definition short_name (n : text) : res text :=
    initials (split_sp (sub_to (map (fun c => if N.eqb c 45 then 32%N else c) n))).
  Definition invMap : list (text * text) :=
    [([9%N], [0x2B7E%N]); ([10%N], [0x21B3%N]); ([32%N], [0x2423%N]); ([8%N], [0x2326%N]);
     ([0x202F%N], [91; 78; 78; 66; 83; 80; 93]%N)].
  Definition inv (t : text) : text := match dget invMap t with Some s => s | None => t end.
  Definition displayText (t : text) : res text :=
    if forallb combining t then Ok (0x25CC%N :: t) else
    match t with
    | [c] => if is_cf c then
               match uname c with
               | Some n => do s <- short_name n; Ok ([91%N] ++ s ++ [93%N])
               | None => Ok (inv t)
               end
             else Ok (inv t)
    | _ => Ok (inv t)
    end.
End Display.

(** * render.py:37, 44-51 *)
Record settings := mkSettings { buttonMargin : Q; middleGap : Q; sWidth : Q; rounding : Q; shadowOffset : Q; markerStroke : Q }.
Definition defaultSettings : settings := mkSettings 20%Q 10%Q 200%Q 10%Q 5%Q 7%Q.
Section Renderer.
  Variable s : settings.
  Variable width : string -> Q.               (* Button.width *)
  (** render.py:254-256 *)
  Definition buttonWidth (b : string) : Q := (width b * sWidth s)%Q.
  (** render.py:134-137, 141-144 *)
  Fixpoint place (l : list string) (m : list (string * (Q * Q))) (x y : Q) : res (list (string * (Q * Q)) * Q) :=
    match l with
    | [] => Ok (m, x)
    | b :: l' => if dhas m b then Raise AssertionError else
                 place l' (dset m b (x, y)) (x + (buttonWidth b + buttonMargin s))%Q y
    end.
  (** [max (a, b)] *)
  Definition pymax (a b : Q) : Q := if negb (Qle_bool b a) then b else a.
  (** render.py:133-151 *)
  Fixpoint calc_rows (rows : list (list string * list string)) (m : list (string * (Q * Q))) (maxW y : Q) :
      res (list (string * (Q * Q)) * (Q * Q)) :=
    match rows with
    | [] => Ok (m, (maxW, y))
    | (l, r) :: rows' =>
        do mx1 <- place l m 0%Q y;
        do mx2 <- place r (fst mx1) (snd mx1 + middleGap s)%Q y;
        calc_rows rows' (fst mx2) (pymax (snd mx2) maxW) (y + (sWidth s + buttonMargin s))%Q
    end.
  (** render.py:121-155 *)
  Definition calcDimensions (rows : list (list string * list string)) := calc_rows rows [] 0%Q 0%Q.

  (** What is drawn for a key, render.py:157-252 *)
  Record rect := mkRect { r_x : Q; r_y : Q; r_w : Q; r_h : Q }.
  Record label := mkLabel { l_layer : nat; l_x : Q; l_y : Q; l_text : text; l_control : bool; l_shadow : bool }.
  Record drawn := mkDrawn {
    d_button : string;
    d_cap : rect; d_unused : bool;
    d_shadow : option (rect * (direction * finger));
    d_marker : list ((Q * Q) * (Q * Q));
    d_highlight : option (Q * Q * Q * Q);       (* opacity, centre, radius *)
    d_labels : list label; d_modifier : bool }.
  (** render.py:216-221 *)
  Definition textParam : list (Q * Q) := [(-(1#4), 3#10); (-(1#4), -(15#100)); (1#4, -(15#100)); (1#4, 3#10)]%Q.
  Definition brackets (t : text) : bool := N.eqb (hd 0%N t) 91 && N.eqb (last t 0%N) 93.
  (** render.py:226-251; text[1:-1] *)
  Definition draw_text (x y w : Q) (shadow : bool) (itp : nat * (option text * (Q * Q))) : list label :=
    let '(i, (t, (dx, dy))) := itp in
    match t with
    | None => []
    | Some t =>
        let more := if shadow then shadowOffset s else 0%Q in
        let c := brackets t in
        [mkLabel i (x + w / 2 + (dx * sWidth s + more))%Q (y + sWidth s / 2 + (dy * sWidth s + more))%Q
           (if c then removelast (tl t) else t) c shadow]
    end.
  Definition drawLabel (texts : list (option text)) (w x y : Q) : list label :=
    let l := enumerate (combine texts textParam) in
    flat_map (draw_text x y w true) l ++ flat_map (draw_text x y w false) l.
  (** render.py:157-174 *)
  Definition drawCap (w x y : Q) : rect := mkRect x y w (sWidth s).
  Definition drawCapShadow (w x y : Q) : rect := mkRect (x + shadowOffset s)%Q (y + shadowOffset s)%Q w (sWidth s).
  (** render.py:176-198: shadow and marker *)
  Definition drawMarker (w x y : Q) : list ((Q * Q) * (Q * Q)) :=
    let st := ((x + w * (3#10))%Q, (y + sWidth s * (9#10))%Q) in
    let en := ((x + w * (7#10))%Q, (y + sWidth s * (9#10))%Q) in
    let sh p := ((fst p + shadowOffset s)%Q, (snd p + shadowOffset s)%Q) in
    [(sh st, sh en); (st, en)].
  (** [min (a, b)] *)
  Definition pymin (a b : Q) : Q := if negb (Qle_bool a b) then b else a.
  (** render.py:200-208 *)
  Definition drawHighlight (h w x y : Q) : Q * Q * Q * Q :=
    (h, (x + w / 2)%Q, (y + sWidth s / 2)%Q, (pymin w (sWidth s) / 2 * (9#10))%Q).

  Variable L : layout.
  Variable fm : list (string * (direction * finger)).
  Variable marked : string -> bool.
  Variable heat : string -> Q.                 (* keyHighlight.get (_, 0) *)
  Variable display : text -> res text.
  (** render.py:87 *)
  Definition layerToArrow : list (nat * text) := [(1, [0x2B61%N]); (2, [0x2B67%N]); (3, [0x2B68%N])].
  Definition display_cell (c : option cell) : res (option text) :=
    match c with
    | None => Ok None
    | Some (CText t) => do d <- display t; Ok (Some d)
    | Some COther => Raise TypeError
    end.
  (** render.py:84-91 *)
  Definition button_texts (b : string) : res (bool * list (option text)) :=
    let m := frozenset [b] in
    if isModifier L m then
      do il <- modifierToLayer L m; do a <- dgetM layerToArrow (fst il); Ok (true, [Some a])
    else do ts <- mapM display_cell (getButtonText L b); Ok (false, ts).
  (** Python's any() over None and strings *)
  Definition any_text (ts : list (option text)) : bool :=
    existsb (fun t => match t with Some (_ :: _) => true | _ => false end) ts.
  (** render.py:82-117: one key *)
  Definition draw_key (pos : list (string * (Q * Q))) (b : string) : res drawn :=
    do mt <- button_texts b;
    let (isMod, ts) := mt : bool * list (option text) in
    let w := buttonWidth b in
    do p <- dgetM pos b;
    let (x, y) := p : Q * Q in
    do sh <- (if any_text ts then do hf <- dgetM fm b; Ok (Some (drawCapShadow w x y, hf)) else Ok None);
    Ok (mkDrawn b (drawCap w x y) (negb (any_text ts)) sh
          (if marked b then drawMarker w x y else [])
          (if negb (Qle_bool (heat b) 0%Q) then Some (drawHighlight (heat b) w x y) else None)
          (drawLabel ts w x y) isMod).
  (** render.py:60-119 *)
  Definition render (rows : list (list string * list string)) : res (list drawn * (Q * Q)) :=
    do md <- calcDimensions rows;
    do ds <- mapM (draw_key (fst md)) (flat_map (fun r => fst r ++ snd r) rows);
    Ok (ds, snd md).
End Renderer.

(** render.py:258-259: [dict ((key (v), v) for v in l).values ()] *)
Definition unique {A K} `{EqDec K} (l : list A) (key : A -> K) : list A := dvals (dict_of (map (fun v => (key v, v)) l)).
