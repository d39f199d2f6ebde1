(** C92: what the SVG picture looks like. *)
From Coq Require Import QArith.
From Verif Require Import Base LayoutModel RenderModel SvgModel SvgSpec.
Close Scope Q_scope.
Open Scope string_scope.
Open Scope list_scope.
Unset Implicit Arguments.

Lemma flat_map_flat_map {A B C} (f : A -> list B) (g : B -> list C) l : flat_map g (flat_map f l) = flat_map (fun x => flat_map g (f x)) l.
Proof. induction l as [|x l IH]; cbn [flat_map]; [reflexivity|]. rewrite flat_map_app, IH. reflexivity. Qed.
Lemma flat_map_map {A B C} (f : A -> B) (g : B -> list C) l : flat_map g (map f l) = flat_map (fun x => g (f x)) l.
Proof. induction l as [|x l IH]; cbn [flat_map map]; [reflexivity|]. rewrite IH. reflexivity. Qed.
Lemma flat_map_same {A B} (f g : A -> list B) l : (forall x, f x = g x) -> flat_map f l = flat_map g l.
Proof. intros H. induction l as [|x l IH]; cbn [flat_map]; [reflexivity|]. rewrite H, IH. reflexivity. Qed.

Local Notation under x := [("svg", @nil string); ("g", []); x] (only parsing).
Section Sheet.
  Variables (css : list rule) (c : colours).
  Let base := plain "black" "none" 1.
  Let lab := plain (c_text c) "none" 1.
  Hypothesis Hroot : computed css (computed css initial [("svg", [])] None) [("svg", []); ("g", [])] None = base.
  Hypothesis Hg : forall k, In k ["cap-shadow"; "cap"; "highlight"] -> computed css base (under ("g", [k])) None = base.
  Hypothesis Hl : computed css base (under ("g", ["label"])) None = lab.
  Hypothesis Hs : forall d, flat_map (painted css base (under ("g", ["cap-shadow"]))) (svg_shadow d) = look_shadow c d.
  Hypothesis Hc : forall d, flat_map (painted css base (under ("g", ["cap"]))) (svg_cap d) = look_cap c d.
  Hypothesis Hh : forall d, flat_map (painted css base (under ("g", ["highlight"]))) (svg_highlight d) = look_heat c d.
  Hypothesis Hm : forall m : bool, computed css lab [("svg", []); ("g", []); ("g", ["label"]); ("g", if m then ["modifier"] else [])] None = lab.
  Hypothesis Ht : forall (m : bool) l,
    flat_map (painted css lab [("svg", []); ("g", []); ("g", ["label"]); ("g", if m then ["modifier"] else [])]) (svg_text l) = look_text c m l.
  Lemma sheet ds : looks css (document ds) = look c ds.
  Proof.
    unfold looks, document, svg_picture, group, look.
    cbn [painted flat_map app]. rewrite Hroot. cbn [app]. rewrite !app_nil_r.
    rewrite !Hg, Hl by (cbn; auto). cbn [app].
    rewrite !flat_map_flat_map, flat_map_map.
    rewrite (flat_map_same _ _ ds Hs), (flat_map_same _ _ ds Hc), (flat_map_same _ _ ds Hh). do 3 f_equal.
    apply flat_map_same. intros d. unfold svg_label, group. cbn [painted app].
    rewrite Hm. cbn [app]. rewrite flat_map_flat_map. apply flat_map_same. intros l. apply Ht.
  Qed.
End Sheet.

Ltac styles := vm_compute; reflexivity.
Lemma painted_leaf css st above tag classes own what : what <> Container ->
  painted css st above (Node tag classes own what []) = [(what, computed css st (above ++ [(tag, classes)]) own)].
Proof. intros H. cbn [painted flat_map]. rewrite app_nil_r. destruct what; [contradiction H; reflexivity|..]; reflexivity. Qed.
Lemma svg_highlight_look css above c d : 
  (forall o, computed css (plain "black" "none" 1) (above ++ [("circle", [])]) (Some o) = plain (c_heat c) "none" (Qred o)) ->
  flat_map (painted css (plain "black" "none" 1) above) (svg_highlight d) = look_heat c d.
Proof.
  intros H. unfold svg_highlight, look_heat. destruct (d_highlight d) as [[[[o cx] cy] r]|]; [|reflexivity].
  cbn [flat_map]. rewrite painted_leaf by discriminate. rewrite H. reflexivity.
Qed.
Lemma one_times o : Qred (1 * o) = Qred o.
Proof. apply Qred_complete. ring. Qed.
Ltac pictures :=
  apply sheet;
  [ styles
  | intros k [<-|[<-|[<-|[]]]]; styles
  | styles
  | intros d; unfold svg_shadow, look_shadow; destruct (d_shadow d) as [[r [h f]]|]; [|reflexivity]; destruct h, f; styles
  | intros d; unfold svg_cap, look_cap, svg_marker; destruct (d_unused d), (d_marker d) as [|[p q] [|[p' q'] [|? ?]]]; styles
  | intros d; apply svg_highlight_look; intros o; unfold computed; cbn [opacity plain]; rewrite one_times; styles
  | intros []; styles
  | intros m l; unfold svg_text, look_text; destruct m, (l_control l), (l_shadow l), (l_layer l) as [|[|[|i]]]; styles ].
(** With the standard style sheet the picture of any layout, heat map and keyboard
    looks like this. *)
Theorem C92_screen ds : looks css_screen (document ds) = look solarized ds.
Proof. pictures. Qed.
Theorem C92_print ds : looks css_print (document ds) = look outlined ds.
Proof. pictures. Qed.

(** The colour of a shadow tells the finger, on both hands alike, and nothing else. *)
Theorem C92_fingers ds d d' r r' h h' f f' : In d ds -> In d' ds -> d_shadow d = Some (r, (h, f)) -> d_shadow d' = Some (r', (h', f')) ->
  exists st st', In (Rect r, st) (looks css_screen (document ds)) /\ In (Rect r', st') (looks css_screen (document ds)) /\ (fill st = fill st' <-> f = f').
Proof.
  intros I I' E E'. exists (plain (c_finger solarized f) "none" 1), (plain (c_finger solarized f') "none" 1). rewrite C92_screen. unfold look.
  split; [|split].
  - apply in_or_app. left. apply in_flat_map. exists d. split; [exact I|]. unfold look_shadow. rewrite E. left. reflexivity.
  - apply in_or_app. left. apply in_flat_map. exists d'. split; [exact I'|]. unfold look_shadow. rewrite E'. left. reflexivity.
  - split; [|intros <-; reflexivity]. cbn [fill plain]. destruct f, f'; cbn; intros H; (reflexivity || discriminate H).
Qed.
(** Every selector of the style sheets is of use. *)
Fixpoint paths (above : path) (t : tree) : list path :=
  match t with Node tag classes _ _ kids => let p := above ++ [(tag, classes)] in p :: flat_map (paths p) kids end.
Definition key_with (f : finger) (ctl md un : bool) : drawn :=
  let l i sh := mkLabel i 0 0 [97%N] ctl sh in
  mkDrawn "x" (mkRect 0 0 1 1) un (Some (mkRect 0 0 1 1, (LEFT, f))) [((0, 0), (1, 1)); ((0, 0), (1, 1))]%Q (Some (1, 0, 0, 1)%Q)
    (map (fun i => l i true) (seq 0 4) ++ map (fun i => l i false) (seq 0 4)) md.
Definition some_keys : list drawn :=
  [key_with LITTLE true false false; key_with RING false true false; key_with MIDDLE false false true; key_with INDEX false false false; key_with THUMB false false false].
Theorem C92_no_dead_rule r sel : In r (css_screen ++ css_print) -> In sel (r_selectors r) ->
  exists ds p, In p (paths [] (document ds)) /\ selects sel p = true.
Proof.
  intros Ir Is. assert (F : forallb (fun r => forallb (fun sel => existsb (selects sel) (paths [] (document some_keys))) (r_selectors r)) (css_screen ++ css_print) = true) by (vm_compute; reflexivity).
  rewrite forallb_forall in F. specialize (F r Ir). rewrite forallb_forall in F. specialize (F sel Is). apply existsb_exists in F as (p & Ip & S). eauto.
Qed.
(** The sheet for printing does not fit heat maps: the circle of the most used key is
    opaque and has the colour of the texts on it. *)
Theorem C92_print_heat ds d cx cy r l : In d ds -> d_highlight d = Some (1%Q, cx, cy, r) ->
  In l (d_labels d) -> l_shadow l = false -> l_control l = false ->
  exists a b, In (Circle cx cy r, a) (looks css_print (document ds)) /\ In (Span (l_x l) (l_y l) (l_text l), b) (looks css_print (document ds)) /\
    fill a = fill b /\ (opacity a == 1)%Q.
Proof.
  intros I E Il S C. rewrite C92_print. unfold look. eexists _, _. split; [|split; [|split]].
  - apply in_or_app. right. apply in_or_app. right. apply in_or_app. left. apply in_flat_map. exists d. split; [exact I|]. unfold look_heat. rewrite E. left. reflexivity.
  - apply in_or_app. right. apply in_or_app. right. apply in_or_app. right. apply in_flat_map. exists d. split; [exact I|]. apply in_flat_map. exists l. split; [exact Il|].
    unfold look_text. rewrite S, C. left. reflexivity.
  - reflexivity.
  - reflexivity.
Qed.
Example C92_example :
  looks css_screen (document [key_with RING false true true]) =
  [(Rect (mkRect 0 0 1 1), plain "#268bd2" "none" 1);
   (Rect (mkRect 0 0 1 1), plain "#eee8d5" "none" (3#5));
   (Line (0, 0) (1, 1), plain "black" "#93a1a1" 1); (Line (0, 0) (1, 1), plain "black" "#fdf6e3" 1);
   (Circle 0 0 1, plain "#dc322f" "none" 1)]%Q ++
  map (fun i => (Span 0 0 [97%N], mkStyle "#fdf6e3" "none" 72 (if Nat.eqb i 0 then 400 else 100) sans 1))%Q (seq 0 4) ++
  map (fun i => (Span 0 0 [97%N], mkStyle "#657b83" "none" 72 (if Nat.eqb i 0 then 400 else 100) sans 1))%Q (seq 0 4).
Proof. vm_compute. reflexivity. Qed.

Print Assumptions C92_screen.
Print Assumptions C92_print.
Print Assumptions C92_fingers.
Print Assumptions C92_no_dead_rule.
Print Assumptions C92_print_heat.
