(** Independent vocabulary for C41-C48. *)
From Coq Require Import Ascii.
From Verif Require Import Base FilterModel.
Open Scope string_scope.
Open Scope list_scope.

(** * C41, C42 *)
(** [y] is [x] with each character replaced as [R] says. *)
Definition charwise (R : N -> text -> Prop) (x y : text) : Prop :=
  exists ps, Forall2 R x ps /\ y = concat ps.
Definition contains {A} (p t : list A) : Prop := exists l r, t = l ++ p ++ r.
Notation CR := 13%N.
Notation LF := 10%N.

(** * C43: [y] comes out of the chain if [x] goes in. *)
Inductive path {A} : list (A -> gen A) -> A -> A -> Prop :=
  | path_end x : path [] x x
  | path_step f fs x z y : In z (fst (f x)) -> path fs z y -> path (f :: fs) x y.

(** * C44: archives *)
Definition octal_digit (c : N) : Prop := (48 <= c <= 55)%N.
Definition octal (ds : list N) : Z := fold_left (fun z c => (8 * z + Z.of_N c - 48)%Z) ds 0%Z.
(** [int (_, 8)] understands octal numbers. *)
Definition reads_octal (int8 : list N -> res Z) : Prop :=
  forall ds, ds <> [] -> Forall octal_digit ds -> int8 ds = Ok (octal ds).
(** A header block announcing [n] bytes *)
Definition field_at {A} (h : list A) (k : nat) (v : list A) : Prop := exists pre post, h = pre ++ v ++ post /\ List.length pre = k.
(** GNU: the end of the name of the link and "ustar  " *)
Definition gnu_magic : list N := 0%N :: map N_of_ascii (list_ascii_of_string "ustar  ").
Definition header_for (h : list N) (n : nat) : Prop :=
  List.length h = 512 /\ field_at h 256 gnu_magic /\
  exists ds k, field_at h 124 (ds ++ repeat 0%N k) /\ List.length ds + k = 12 /\ ds <> [] /\ Forall octal_digit ds /\ octal ds = Z.of_nat n.
Definition zeros : list N := repeat 0%N 512.
(** header, content and padding to a multiple of 512 *)
Record member := mkMember { m_header : list N; m_data : list N; m_pad : list N }.
Definition member_ok (m : member) : Prop :=
  header_for (m_header m) (List.length (m_data m)) /\
  List.length (m_pad m) < 512 /\ Nat.modulo (List.length (m_data m) + List.length (m_pad m)) 512 = 0.
Definition bytes (m : member) : list N := m_header m ++ m_data m ++ m_pad m.
Definition archive (ms : list member) : list N := flat_map bytes ms.
Definition contents (ms : list member) : list (list N) := filter (fun d => negb (Nat.eqb (List.length d) 0)) (map m_data ms).
(** What follows the last member: nothing, or an empty block and anything *)
Definition archive_end (r : list N) : Prop := r = [] \/ exists r', r = zeros ++ r'.

(** * C45: decompressors *)
Section Decoder.
  Context {D : Type}.
  Variable process : D -> list N -> res (D * list N).
  Variable finished : D -> bool.
  (** [d0] turns [comp] into [out comp], in whatever pieces it is fed; [out p] is
      what it has produced after the prefix [p]. *)
  Definition decodes_to (d0 : D) (comp : list N) (fin : bool) (out : list N -> list N) : Prop :=
    exists R : D -> list N -> Prop,
      R d0 [] /\ out [] = [] /\
      (forall d p, R d p -> finished d = true -> p = comp) /\
      (forall d, R d comp -> finished d = fin) /\
      (forall d p q r, R d p -> finished d = false -> comp = p ++ q ++ r -> (q = [] -> r = []) ->
         exists d' o, process d q = Ok (d', o) /\ R d' (p ++ q) /\ out (p ++ q) = out p ++ o).
End Decoder.
(** What a sequence of reads on data gives *)
Fixpoint cut (ns : list (option nat)) (data : list N) : list (list N) :=
  match ns with
  | [] => []
  | Some n :: ns' => firstn n data :: cut ns' (skipn n data)
  | None :: ns' => data :: cut ns' []
  end.

(** * C46, C47: document trees *)
Inductive node :=
  | Elem (name : string) (data : attrs) (children : list node)
  | Void (name : string) (data : attrs)
  | Chars (t : text)
  | Spaces (t : text)
  | Cmt (t : text).
(** The tree walker *)
Fixpoint toks (n : node) : list token :=
  match n with
  | Elem name d cs => StartTag name d :: flat_map toks cs ++ [EndTag name]
  | Void name d => [EmptyTag name d]
  | Chars t => [Characters t]
  | Spaces t => [SpaceCharacters t]
  | Cmt t => [Comment t]
  end.
(** Elements whose contents are no text *)
Definition code_elem (name : string) : bool := if string_dec name "script" then true else if string_dec name "style" then true else false.
Definition scriptb (n : node) : bool := match n with Elem name _ _ => code_elem name | _ => false end.
(** A tree without scripts and styles *)
Fixpoint clean (n : node) : list node :=
  match n with
  | Elem name d cs => if code_elem name then [] else [Elem name d (flat_map clean cs)]
  | _ => [n]
  end.
Section Wanted.
  Variable f : string -> attrs -> bool.
  Definition chosen (n : node) : bool := match n with Elem name d _ => f name d | _ => false end.
  (** The selected subtrees, without scripts and styles *)
  Fixpoint wanted (n : node) : list node :=
    match n with
    | Elem name d cs => if f name d then clean n else if code_elem name then [] else flat_map wanted cs
    | _ => []
    end.
  (** Is an element selected in this subtree? *)
  Fixpoint chosen_in (n : node) : bool :=
    match n with
    | Elem name d cs => f name d || existsb chosen_in cs
    | _ => false
    end.
  (** No selected element below another one *)
  Fixpoint unnested (n : node) : Prop :=
    match n with
    | Elem name d cs =>
        (f name d = true -> existsb chosen_in cs = false) /\
        (fix all l := match l with [] => True | c :: l' => unnested c /\ all l' end) cs
    | _ => True
    end.
  (** Scripts and styles contain no elements and are not selected. *)
  Fixpoint flat_scripts (n : node) : Prop :=
    match n with
    | Elem name d cs =>
        (code_elem name = true -> f name d = false /\ Forall (fun c => match c with Elem _ _ _ => False | _ => True end) cs) /\
        (fix all l := match l with [] => True | c :: l' => flat_scripts c /\ all l' end) cs
    | _ => True
    end.
  (** What Select really yields, also with nested selected elements: the tokens,
      starting inside or outside of a selected element, and whether it is inside
      at the end.  The end of a nested selected element ends the output of the
      surrounding one. *)
  Fixpoint emit (ins : bool) (n : node) : list token * bool :=
    match n with
    | Elem name d cs =>
        if code_elem name then ([], ins) else
        let ins' := ins || f name d in
        let r := (fix all b l := match l with
                   | [] => ([], b)
                   | c :: l' => let '(ts, b1) := emit b c in let '(ts', b2) := all b1 l' in (ts ++ ts', b2)
                   end) ins' cs in
        (if ins' then StartTag name d :: fst r ++ (if snd r then [EndTag name] else []) else fst r,
         negb (f name d) && snd r)
    | _ => (if ins then toks n else [], ins)
    end.
  Fixpoint emit_all (ins : bool) (l : list node) : list token * bool :=
    match l with
    | [] => ([], ins)
    | c :: l' => let '(ts, b1) := emit ins c in let '(ts', b2) := emit_all b1 l' in (ts ++ ts', b2)
    end.
End Wanted.
(** The text of a document: character data, a blank for white space, an empty line
    after paragraphs and divisions. *)
Fixpoint prose (n : node) : text :=
  match n with
  | Elem name _ cs => flat_map prose cs ++ (if eqb name "p" || eqb name "div" then [LF; LF] else [])
  | Chars t => t
  | Spaces _ => [32%N]
  | Void _ _ | Cmt _ => []
  end.

(** * C48: positions in a document, in document order *)
Fixpoint at_pos (n : dnode) (pos : list nat) : option dnode :=
  match pos with
  | [] => Some n
  | i :: pos' => match n with DElem _ cs => match nth_error cs i with Some c => at_pos c pos' | None => None end | _ => None end
  end.
Definition in_doc (doc : list dnode) (pos : list nat) : option dnode :=
  match pos with [] => None | i :: pos' => match nth_error doc i with Some c => at_pos c pos' | None => None end end.
Definition is_elem (doc : list dnode) (name : string) (pos : list nat) (cs : list dnode) : Prop :=
  in_doc doc pos = Some (DElem name cs).
(** Document order: ancestors first, then by position *)
Inductive before : list nat -> list nat -> Prop :=
  | before_prefix p : p <> [] -> before [] p
  | before_here i j p q : i < j -> before (i :: p) (j :: q)
  | before_below i p q : before p q -> before (i :: p) (i :: q).
Definition inside (p q : list nat) : Prop := exists r, r <> [] /\ q = p ++ r.
Definition text_at (doc : list dnode) (pos : list nat) : text :=
  match in_doc doc pos with Some (DElem _ cs) => dtext cs | _ => [] end.
Definition not_nested (doc : list dnode) (name : string) : Prop :=
  forall p q cs ds, is_elem doc name p cs -> is_elem doc name q ds -> ~ inside p q.
(** A paragraph of the body of a text *)
Definition paragraph (doc : list dnode) (g : list nat) : Prop :=
  exists t b ts bs gs, is_elem doc "text" t ts /\ is_elem doc "body" b bs /\ is_elem doc "p" g gs /\ inside t b /\ inside b g.
(** [s] without the white space around it *)
Definition trimmed (isspace : N -> bool) (t s : text) : Prop :=
  (exists l r, t = l ++ s ++ r /\ Forall (fun c => isspace c = true) l /\ Forall (fun c => isspace c = true) r) /\
  (forall c s', s = c :: s' -> isspace c = false) /\ (forall c s', s = s' ++ [c] -> isspace c = false).

(** What the character map is meant to do.  Arabic letters composed with hamza
    or madda, as base letter and combining mark: *)
Definition hamza_letter (c : N) : option text :=
  (if c =? 0x622 then Some [0x627; 0x653]        (* alef, madda above *)
   else if c =? 0x623 then Some [0x627; 0x654]   (* alef, hamza above *)
   else if c =? 0x624 then Some [0x648; 0x654]   (* waw, hamza above *)
   else if c =? 0x625 then Some [0x627; 0x655]   (* alef, hamza below *)
   else if c =? 0x626 then Some [0x64A; 0x654]   (* yeh, hamza above *)
   else None)%N.
(** Isolated ligatures of lam and the alefs 627, 623 and 625. *)
Definition lam_alef (c : N) : option text :=
  (if c =? 0xFEFB then Some [0x644; 0x627]
   else if c =? 0xFEF7 then option_map (cons 0x644) (hamza_letter 0x623)
   else if c =? 0xFEF9 then option_map (cons 0x644) (hamza_letter 0x625)
   else None)%N.
(** Western digits and punctuation. *)
Definition western (c : N) : option text :=
  (if (0x30 <=? c) && (c <=? 0x39) then Some [0x660 + (c - 0x30)]
   else if c =? 0x2C then Some [0x60C] else if c =? 0x3B then Some [0x61B]
   else if c =? 0x3F then Some [0x61F] else if c =? 0x25 then Some [0x66A]
   else if c =? 0xA0 then Some [0x20]
   else None)%N.
Definition arabic (c : N) : text :=
  match hamza_letter c with
  | Some t => t
  | None => match lam_alef c with
            | Some t => t
            | None => match western c with Some t => t | None => [c] end
            end
  end.
