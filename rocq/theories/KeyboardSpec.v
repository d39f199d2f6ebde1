(** Vocabulary for the keyboard properties, independent of the registry code. *)
From Coq Require Import QArith.
From Verif Require Import Base KeyboardModel.
Close Scope Q_scope.
Open Scope list_scope.

(** A history of button constructions: the names, in order.  The result of a
    history: the ids handed out and the final registry. *)
Fixpoint create (r : registry) (names : list string) : list N * registry :=
  match names with
  | [] => ([], r)
  | n :: ns => let (i, r1) := intern r n in let (is, r2) := create r1 ns in (i :: is, r2)
  end.

(** The distinct names in order of first occurrence. *)
Fixpoint firsts (seen names : list string) : list string :=
  match names with
  | [] => seen
  | n :: ns => if mem n seen then firsts seen ns else firsts (seen ++ [n]) ns
  end.
Definition distinct (names : list string) : list string := firsts [] names.

(** Observable content of a button in a world. *)
Definition scan_content (w : world) (b : button) : option ydict :=
  match bscan b with None => None | Some l => Some (heap_get (wheap w) l) end.
Definition button_name (w : world) (b : button) : res string := name_of (wreg w) (bid b).

(** Two buttons in possibly different worlds look the same to a user. *)
Definition same_button (w1 : world) (b1 : button) (w2 : world) (b2 : button) : Prop :=
  button_name w1 b1 = button_name w2 b2 /\ bid b1 = bid b2 /\
  bkind b1 = bkind b2 /\ bwidth b1 = bwidth b2 /\
  truthy (bmarked b1) = truthy (bmarked b2) /\ bspan b1 = bspan b2 /\
  scan_content w1 b1 = scan_content w2 b2.

Definition same_row w1 (r1 : list button * list button) w2 (r2 : list button * list button) : Prop :=
  Forall2 (fun a b => same_button w1 a w2 b) (fst r1) (fst r2) /\
  Forall2 (fun a b => same_button w1 a w2 b) (snd r1) (snd r2).

Definition same_keyboard w1 k1 w2 k2 : Prop :=
  kname k1 = kname k2 /\ kdesc k1 = kdesc k2 /\
  Forall2 (fun a b => same_row w1 a w2 b) (krows k1) (krows k2).

(** A button as constructed by lulua: registered name, span exactly for
    MultiRowButton, windows scancode a tuple. *)
Definition scan_is (f : yval -> bool) (d : ydict) : bool :=
  match dget d "windows"%string with None => true | Some v => f v end.
Definition is_tuple (v : yval) := match v with YTuple _ => true | _ => false end.
Definition is_list (v : yval) := match v with YList _ => true | _ => false end.
Definition valid_button (w : world) (b : button) : Prop :=
  (exists n, button_name w b = Ok n) /\
  match bkind b, bspan b with Multi, Some _ => True | Multi, None => False | _, None => True | _, Some _ => False end /\
  match bscan b with None => True | Some l => l < List.length (wheap w) /\ scan_is is_tuple (heap_get (wheap w) l) = true end.
Definition all_buttons (rows : list (list button * list button)) : list button :=
  flat_map (fun row => fst row ++ snd row) rows.


(** Entries of a button description, or what is assumed when there is none. *)
Definition given (data : ydict) (k : string) (default : yval) : yval :=
  match dget data k with Some v => v | None => default end.
Definition button_keys : list string := ["kind"; "name"; "width"; "isMarked"; "scancode"; "span"]%string.

(** Values Python takes for false *)
Inductive falsy : yval -> Prop :=
  | falsy_none : falsy YNone
  | falsy_false : falsy (YBool false)
  | falsy_zero q : (q == 0)%Q -> falsy (YNum q)
  | falsy_text : falsy (YStr "")
  | falsy_list : falsy (YList [])
  | falsy_tuple : falsy (YTuple []).
(** What is written of a button *)
Inductive written (w : world) (b : button) : string -> yval -> Prop :=
  | written_name n : button_name w b = Ok n -> written w b "name" (YStr n)
  | written_width : written w b "width" (bwidth b)
  | written_scancode l : bscan b = Some l -> written w b "scancode" (YRef l)
  | written_no_scancode : bscan b = None -> written w b "scancode" YNone
  | written_letter : bkind b = Letter -> written w b "kind" (YStr "letter")
  | written_multi : bkind b = Multi -> written w b "kind" (YStr "multi")
  | written_marked : ~ falsy (bmarked b) -> written w b "isMarked" (bmarked b)
  | written_span v : bspan b = Some v -> written w b "span" v.
