(** How Windows reads the tables of a keyboard driver (kbd.h): the vocabulary for
    the properties of the generated driver. *)
From Verif Require Import Base LayoutModel DataWinkbd WinkbdModel.
Open Scope string_scope.
Open Scope list_scope.

(** * C expressions *)
Definition kval (k : key) : N := match k with KVk v => v | KFl v => v | KWc v => v end.
(** The enumeration has a member with this value. *)
Definition known (k : key) : Prop :=
  match k with KVk v => In v (dvals vkval) | KFl v => In v (dvals vkflags) | KWc v => In v (dvals wchars) end.
(** Macro [s] is defined, and by every definition as [v]. *)
Definition macro (defs : list (string * N)) (s : string) (v : N) : Prop :=
  In (s, v) defs /\ forall w, In (s, w) defs -> w = v.
(** The value of macros joined by [|]. *)
Inductive or_value (defs : list (string * N)) : list string -> N -> Prop :=
  | or_nil : or_value defs [] 0
  | or_cons s v l w : macro defs s v -> or_value defs l w -> or_value defs (s :: l) (N.lor v w).
Definition orvals (ks : list key) : N := fold_right N.lor 0%N (map kval ks).

(** * Tables that end with a zero entry *)
Inductive outcome (A : Type) := Found (a : A) | NotFound | OutOfBounds.
Arguments Found {A} a.
Arguments NotFound {A}.
Arguments OutOfBounds {A}.
(** Linear search up to the zero entry; running past the end of the array is
    an out of bounds read. *)
Fixpoint scan {V} (t : list (N * V)) (c : N) : outcome V :=
  match t with
  | [] => OutOfBounds
  | (k, v) :: r => if N.eqb k 0 then NotFound else if N.eqb k c then Found v else scan r c
  end.
(** Strictly increasing first components. *)
Definition ascending {V} (t : list (N * V)) : Prop := StronglySorted (fun a b => (fst a < fst b)%N) t.

(** * Modifiers *)
(** Windows treats the left and the right variant of a modifier alike. *)
Definition side (v : N) : N :=
  if mem v [vk "LSHIFT"; vk "RSHIFT"] then vk "SHIFT"
  else if mem v [vk "LCONTROL"; vk "RCONTROL"] then vk "CONTROL"
  else if mem v [vk "LMENU"; vk "RMENU"] then vk "MENU" else v.
(** The shift state while the given virtual keys are held. *)
Definition shift_state (held : list N) : N :=
  fold_right N.lor 0%N (map snd (filter (fun vb => mem (fst vb) (map side held)) vkToBitsTable)).
(** The layer Windows selects for a shift state. *)
Definition selects (d : driver) (state : N) : option N :=
  if N.leb state (d_maxbits d) then
    match nth_error (d_modnum d) (N.to_nat state) with
    | Some n => if N.eqb n 0x0F then None else Some n
    | None => None
    end
  else None.
(** Which keys are meant to select which layer. *)
Definition intended : list (list string) :=
  [[]; ["SHIFT"]; ["OEM_102"]; ["OEM_8"]; ["SHIFT"; "OEM_102"]; ["OEM_8"; "OEM_102"]; ["CONTROL"];
   ["SHIFT"; "CONTROL"]; ["SHIFT"; "OEM_8"]].

(** * Characters *)
Definition ceval (defs : list (string * N)) (e : cexpr) : option N :=
  match e with CNum n => Some n | CName s => dget defs s end.
(** Rows of a VK_TO_WCHARS table, up to the zero row. *)
Fixpoint scan_rows (defs : list (string * N)) (t : list wrow) (v : N) : outcome wrow :=
  match t with
  | [] => OutOfBounds
  | r :: t' => match ceval defs (w_vk r) with
               | Some k => if N.eqb k 0 then NotFound else if N.eqb k v then Found r else scan_rows defs t' v
               | None => OutOfBounds
               end
  end.
(** All tables, up to the null entry. *)
Fixpoint scan_tables (d : driver) (ts : list (option tblname)) (v : N) : outcome wrow :=
  match ts with
  | [] => OutOfBounds
  | None :: _ => NotFound
  | Some n :: r =>
      match dget (d_wch d) n with
      | Some rows => match scan_rows (d_defs d) rows v with
                     | NotFound => scan_tables d r v
                     | o => o
                     end
      | None => OutOfBounds
      end
  end.
(** The 16 bit character in a column; 0xF000 stands for none, as does a column
    the row does not have. *)
Definition column (d : driver) (r : wrow) (i : nat) : option N :=
  match nth_error (w_chars r) i with
  | Some e => match ceval (d_defs d) e with
              | Some c => let c := N.modulo c 65536 in if N.eqb c 0xF000 then None else Some c
              | None => None
              end
  | None => None
  end.
Definition char_of (d : driver) (v : N) (i : nat) : outcome (option N) :=
  match scan_tables d (d_tables d) v with Found r => Found (column d r i) | NotFound => NotFound | OutOfBounds => OutOfBounds end.
(** Translation from a character to a key (VkKeyScan): the first row, in the
    order of the tables, that has the character in a column. *)
Definition has_char (d : driver) (c : N) (r : wrow) : bool :=
  existsb (fun i => eqb (column d r i) (Some c)) (seq 0 (List.length (w_chars r))).
Fixpoint find_row (d : driver) (p : wrow -> bool) (t : list wrow) : outcome wrow :=
  match t with
  | [] => OutOfBounds
  | r :: t' => match ceval (d_defs d) (w_vk r) with
               | Some k => if N.eqb k 0 then NotFound else if p r then Found r else find_row d p t'
               | None => OutOfBounds
               end
  end.
Fixpoint find_tables (d : driver) (p : wrow -> bool) (ts : list (option tblname)) : outcome wrow :=
  match ts with
  | [] => OutOfBounds
  | None :: _ => NotFound
  | Some n :: r =>
      match dget (d_wch d) n with
      | Some rows => match find_row d p rows with NotFound => find_tables d p r | o => o end
      | None => OutOfBounds
      end
  end.
Definition key_for (d : driver) (c : N) : outcome cexpr :=
  match find_tables d (has_char d c) (d_tables d) with Found r => Found (w_vk r) | NotFound => NotFound | OutOfBounds => OutOfBounds end.

(** * Scancodes *)
(** The virtual key (low byte) Windows derives from a scancode. *)
Definition vk_of (d : driver) (sc : list N) (v : N) : Prop :=
  exists names w, or_value (d_defs d) names w /\ v = N.land w 0xFF /\
    match sc with
    | [c] => (c < 128)%N /\ nth_error (d_ausVK d) (N.to_nat c) = Some names
    | [e; c] => (e = 0xe0%N /\ scan (d_E0 d) c = Found names) \/ (e = 0xe1%N /\ scan (d_E1 d) c = Found names)
    | _ => False
    end.
(** Pressing [sc] while layer [i] is selected yields [o]. *)
Definition press_yields (d : driver) (sc : list N) (i : nat) (o : option N) : Prop :=
  exists v, vk_of d sc v /\ char_of d v i = Found o.
(** What a text of the layout should become: nothing, or its character, with
    line feeds converted to carriage returns. *)
Definition expected (s : option cell) : option N :=
  match s with Some (CText [c]) => Some (if N.eqb c 10 then 13%N else c) | _ => None end.
(** What Windows keeps of a text: 16 bits, and 0xF000 stands for nothing. *)
Definition wide (s : option cell) : option N :=
  match s with Some (CText [c]) => if N.eqb (c mod 65536) 0xF000 then None else Some (c mod 65536)%N | _ => None end.
(** All macros the tables use. *)
Definition macros_of (es : list cexpr) : list string := flat_map (fun e => match e with CName s => [s] | CNum _ => [] end) es.
Definition used_macros (d : driver) : list string :=
  concat (d_ausVK d) ++ concat (map snd (d_E0 d)) ++ concat (map snd (d_E1 d)) ++ macros_of (map fst (d_bits d)) ++
  macros_of (flat_map (fun t => flat_map (fun r => w_vk r :: w_chars r) (snd t)) (d_wch d)).
