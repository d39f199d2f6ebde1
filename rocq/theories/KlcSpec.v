(** What a KLC file says, by its grammar rather than by a parser. *)
From Verif Require Import Base LayoutModel KlcModel.

(** The characters Unicode calls white space or separators of lines, paragraphs and
    fields: tabulator to carriage return, the four information separators, space, next line,
    no-break space, ogham space, the spaces of General Punctuation, ideographic space. *)
Definition white_space : list N := [
  0x09; 0x0A; 0x0B; 0x0C; 0x0D; 0x1C; 0x1D; 0x1E; 0x1F; 0x20; 0x85; 0xA0; 0x1680;
  0x2000; 0x2001; 0x2002; 0x2003; 0x2004; 0x2005; 0x2006; 0x2007; 0x2008; 0x2009; 0x200A;
  0x2028; 0x2029; 0x202F; 0x205F; 0x3000]%N.
Definition blank (t : text) : Prop := Forall (fun c => In c white_space) t.
(** A word: no whitespace and none of the characters that start remarks. *)
Definition word (t : text) : Prop := t <> [] /\ Forall (fun c => ~ In c white_space /\ c <> 47%N /\ c <> 59%N) t.
(** A remark: [// ...], or [; ... // ...]. *)
Definition remark (t : text) : Prop :=
  t = [] \/ (exists x, t = lit "//" ++ x) \/ (exists x y, t = lit ";" ++ x ++ lit "//" ++ y).
(** Words separated by whitespace. *)
Inductive spaced : list text -> text -> Prop :=
  | spaced_one w : word w -> spaced [w] w
  | spaced_cons w s ws t : word w -> s <> [] -> blank s -> spaced ws t -> spaced (w :: ws) (w ++ s ++ t).
(** [line] is one way to write down [ws]. *)
Inductive written : list text -> text -> Prop :=
  | written_nil b r : blank b -> remark r -> written [] (b ++ r)
  | written_words b ws t b' r : blank b -> spaced ws t -> blank b' -> remark r ->
      written ws (b ++ t ++ b' ++ r).
Definition contains (p t : text) : Prop := exists a b, t = a ++ p ++ b.
Definition layout_line (l : text) : Prop := exists b x, blank b /\ l = b ++ lit "LAYOUT" ++ x.
(** A row of the layout section does not look like a section header. *)
Definition plain (ws : list text) : Prop :=
  ws <> [lit "LIGATURE"] /\ forall w ws', ws = w :: ws' -> ~ exists x, w = lit "LAYOUT" ++ x.
(** The layout section of [file] consists of [rows]. *)
Definition klc_file (file : list text) (rows : list (list text)) : Prop :=
  exists pre l0 body post,
    file = pre ++ l0 :: body ++ post /\
    Forall (fun l => ~ contains (lit "LAYOUT") l) pre /\ layout_line l0 /\
    Forall2 written rows body /\ Forall plain rows /\
    (post = [] \/ exists l1 rest, post = l1 :: rest /\ written [lit "LIGATURE"] l1 /\
       Forall (fun l => ~ contains (lit "LAYOUT") l) rest).

Section Klc.
  Variable int16 : text -> option Z.
  Variable nfd : text -> text.
  (** The meaning of one column of a row. *)
  Definition cell_text (c t : text) : Prop :=
    c <> lit "%%" /\ exists n, int16 c = Some n /\ (0 <= n < 0x110000)%Z /\ t = nfd [Z.to_N n].
  Definition cell_none (c : text) : Prop := c = lit "%%" \/ int16 c = Some (-1)%Z.
  (** Row [ws] puts text [t] on button [b] of layer [i]. *)
  Definition says (ws : list text) (i : nat) (b : string) (t : text) : Prop :=
    exists sc vk cap codes c, ws = sc :: vk :: cap :: codes /\ In (vk, b) vkToButton /\
      nth_error codes i = Some c /\ cell_text c t.
  (** The last row that says anything about [i], [b] says [t]. *)
  Definition last_says (rows : list (list text)) (i : nat) (b : string) (t : text) : Prop :=
    exists pre r post, rows = pre ++ r :: post /\ says r i b t /\
      forall r' t', In r' post -> ~ says r' i b t'.

  Definition cells_ok (codes : list text) : Prop := forall c, In c codes -> cell_none c \/ exists t, cell_text c t.
  Definition known (vk : text) : Prop := vk = lit "DECIMAL" \/ exists b, In (vk, b) vkToButton.
  (** Only the first six columns of a known key may be filled. *)
  Definition fits (vk : text) (codes : list text) : Prop :=
    forall b i c t, In (vk, b) vkToButton -> nth_error codes i = Some c -> cell_text c t -> i < 6.
  Definition row_ok (ws : list text) : Prop :=
    forall sc vk cap codes, ws = sc :: vk :: cap :: codes -> cells_ok codes /\ known vk /\ fits vk codes.
End Klc.
