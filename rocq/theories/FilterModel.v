(** Model of the corpus filters in lulua/text.py:51-251, 323-328. *)
From Verif Require Import Base TextModel.
Open Scope string_scope.
Open Scope list_scope.

(** * Generators: what is yielded, and the exception that ends it, if any *)
Notation gen A := (list A * option exn)%type.
(** [chain.from_iterable (map (f, items))], text.py:328; [items] is itself a
    generator. *)
Fixpoint gchain {A B} (f : A -> gen B) (l : list A) (e : option exn) : gen B :=
  match l with
  | [] => ([], e)
  | x :: l' =>
      match f x with
      | (ys, None) => let (zs, e') := gchain f l' e in (ys ++ zs, e')
      | (ys, Some ex) => (ys, Some ex)
      end
  end.
(** text.py:323-328: apply *)
Fixpoint apply_gen {A} (fs : list (A -> gen A)) (items : gen A) : gen A :=
  match fs with
  | [] => items
  | f :: fs' => apply_gen fs' (gchain f (fst items) (snd items))
  end.

(** * Python slices of byte strings *)
Definition slice {A} (l : list A) (i j : nat) : list A := firstn (j - i) (skipn i l).
(** [l[0:n]] and [l[n:]] for any n *)
Definition clampZ (len : nat) (n : Z) : nat := if (n <? 0)%Z then len - Z.to_nat (- n) else Z.to_nat n.
Definition upto {A} (l : list A) (n : Z) : list A := firstn (clampZ (List.length l) n) l.
Definition from {A} (l : list A) (n : Z) : list A := skipn (clampZ (List.length l) n) l.

(** * text.py:146-171: filterTar.  A file is the list of bytes left; read() returns
    as many as requested unless the file ends. *)
Definition blocksize : nat := 512.
Definition emptyblock : list N := repeat 0%N blocksize.
Definition tar_magic : list N := [0; 117; 115; 116; 97; 114; 32; 32]%N.   (* \0ustar and two blanks *)
Fixpoint lstrip0 (l : list N) : list N := match l with 0%N :: l' => lstrip0 l' | _ => l end.
Definition rstrip0 (l : list N) : list N := rev (lstrip0 (rev l)).
Section Tar.
  Variable int8 : list N -> res Z.         (* int (_, base=8) *)
  Fixpoint tar_loop (fuel pos : nat) (fd : list N) : gen (list N) :=
    match fuel with
    | O => ([], Some OutOfFuel)
    | S fuel' =>
        let header := firstn blocksize fd in
        let fd := skipn blocksize fd in
        let pos := pos + blocksize in
        if eqb header [] || eqb header emptyblock then ([], None) else          (* 156 *)
        if negb (eqb (slice header 256 (256 + 8)) tar_magic) then ([], Some AssertionError) else
        match int8 (rstrip0 (slice header 124 (124 + 12))) with                  (* 159 *)
        | Raise e => ([], Some e)
        | Ok size =>
            let n := Z.to_nat size in
            let '(body, fd, pos) :=
              if (0 <? size)%Z then ([firstn n fd], skipn n fd, pos + n) else ([], fd, pos) in
            let into := Nat.modulo pos blocksize in
            let '(fd, pos) :=
              if Nat.eqb into 0 then (fd, pos) else (skipn (blocksize - into) fd, pos + (blocksize - into)) in
            let (ys, e) := tar_loop fuel' pos fd in (body ++ ys, e)
        end
    end.
  Definition filterTar (fuel : nat) (fd : list N) : gen (list N) := tar_loop fuel 0 fd.
End Tar.

(** * text.py:112-144: BrotliFile, for any decompressor *)
Section Brotli.
  Context {D : Type}.
  Variable process : D -> list N -> res (D * list N).
  Variable finished : D -> bool.
  Variable readchunk : nat.
  Record bfile := mkBF { b_dec : D; b_buf : list N; b_fd : list N }.
  (** text.py:128-131 *)
  Fixpoint brotli_fill (fuel : nat) (num : option Z) (f : bfile) : res bfile :=
    match fuel with
    | O => Raise OutOfFuel
    | S fuel' =>
        if finished (b_dec f) then Ok f else
        if (match num with Some n => (n <=? Z.of_nat (List.length (b_buf f)))%Z | None => false end) then Ok f else
        do r <- process (b_dec f) (firstn readchunk (b_fd f));
        brotli_fill fuel' num (mkBF (fst r) (b_buf f ++ snd r) (skipn readchunk (b_fd f)))
    end.
  (** text.py:127-138: read *)
  Definition brotli_read (fuel : nat) (num : option Z) (f : bfile) : res (list N * bfile) :=
    do f' <- brotli_fill fuel num f;
    match num with
    | Some n => Ok (upto (b_buf f') n, mkBF (b_dec f') (from (b_buf f') n) (b_fd f'))
    | None => Ok (b_buf f', mkBF (b_dec f') [] (b_fd f'))
    end.
  (** Several calls *)
  Fixpoint brotli_reads (fuel : nat) (nums : list (option Z)) (f : bfile) : res (list (list N)) :=
    match nums with
    | [] => Ok []
    | n :: nums' => do rf <- brotli_read fuel n f; do rs <- brotli_reads fuel nums' (snd rf); Ok (fst rf :: rs)
    end.
End Brotli.

(** * HTML tokens as html5lib's tree walkers produce them *)
Notation attrs := (list (string * string)).
Inductive token :=
  | StartTag (name : string) (data : attrs)
  | EndTag (name : string)
  | EmptyTag (name : string) (data : attrs)
  | Characters (data : text)
  | SpaceCharacters (data : text)
  | Comment (data : text)
  | Doctype
  | Entity (name : text)
  | OtherToken.

(** text.py:51-82: Select.  [f] is the predicate on start tags. *)
Section Select.
  Variable f : string -> attrs -> bool.
  Definition is_script (name : string) : bool := mem name ["script"; "style"].
  (** self.inside and isScript *)
  Definition sstate := (option Z * option Z)%type.
  (** One token: new state, is it yielded? *)
  Definition select_step (s : sstate) (t : token) : sstate * bool :=
    let '(inside, script) := s in
    let '(inside, script) :=
      match t with
      | StartTag name data =>
          (if f name data then Some 0%Z else inside, if is_script name then Some 0%Z else script)
      | _ => (inside, script)
      end in
    match script with
    | Some n =>
        match t with
        | EndTag _ => let n' := (n - 1)%Z in ((inside, if (n' <=? 0)%Z then None else Some n'), false)
        | _ => ((inside, script), false)
        end
    | None =>
        match inside with
        | Some k =>
            let k' := (match t with StartTag _ _ => k + 1 | EndTag _ => k - 1 | _ => k end)%Z in
            ((if (k' <=? 0)%Z then None else Some k', None), true)
        | None => ((None, None), false)
        end
    end.
  Fixpoint select (s : sstate) (ts : list token) : list token :=
    match ts with
    | [] => []
    | t :: ts' => let (s', y) := select_step s t in if y : bool then t :: select s' ts' else select s' ts'
    end.
End Select.

(** text.py:84-110: HTMLSerializer.serialize.  [entities] is
    html5lib.constants.entities without the semicolons.  There is no method
    serializeError. *)
Section Serialize.
  Variable entities : text -> option text.
  Definition serialize1 (t : token) : gen text :=
    match t with
    | Doctype => ([], None)
    | Characters d => ([d], None)
    | SpaceCharacters _ => ([[32%N]], None)
    | StartTag _ _ | EmptyTag _ _ => ([], None)
    | EndTag name => (if mem name ["p"; "div"] then [[10; 10]%N] else [], None)
    | Comment _ => ([], None)
    | Entity name => match entities name with Some v => ([v], None) | None => ([], Some AttributeError) end
    | OtherToken => ([], Some AssertionError)
    end.
  Definition serialize (ts : list token) : gen text := gchain serialize1 ts None.
  (** text.py:176-181: filterHtml after parsing.  join() consumes the generator
      first, so that an exception means nothing is yielded. *)
  Definition filterHtml (f : string -> attrs -> bool) (ts : list token) : gen text :=
    match serialize (select f (None, None) ts) with
    | (ys, None) => ([concat ys], None)
    | (_, Some e) => ([], Some e)
    end.
End Serialize.
(** text.py:271-274 *)
Definition sel_aljazeera (name : string) (data : attrs) : bool :=
  eqb name "div" && eqb (dget data "id") (Some "DynamicContentContainer").
Definition sel_bbcarabic (name : string) (data : attrs) : bool :=
  eqb name "div" && eqb (dget data "property") (Some "articleBody").

(** * XML documents *)
Inductive dnode :=
  | DElem (name : string) (children : list dnode)
  | DText (data : text)
  | DOther.
(** minidom: getElementsByTagName, all descendants in document order *)
Fixpoint elements (name : string) (n : dnode) : list (list dnode) :=
  match n with
  | DElem name' cs => (if eqb name' name then [cs] else []) ++ flat_map (elements name) cs
  | _ => []
  end.
Definition byTagName (name : string) (cs : list dnode) : list (list dnode) := flat_map (elements name) cs.
(** text.py:221-227: getText *)
Definition dtext (cs : list dnode) : text := flat_map (fun n => match n with DText d => d | _ => [] end) cs.
Fixpoint joinL (sep : text) (l : list text) : text :=
  match l with [] => [] | [x] => x | x :: l' => x ++ sep ++ joinL sep l' end.
(** text.py:229-238: filterTEI2; [doc] are the children of the document. *)
Definition tei2_lines (doc : list dnode) : list text :=
  flat_map (fun t => flat_map (fun b => flat_map (fun p =>
    map dtext (byTagName "s" p) ++ [[]]) (byTagName "p" b)) (byTagName "body" t)) (byTagName "text" doc).
Definition filterTEI2 (doc : list dnode) : gen text := ([joinL [10%N] (tei2_lines doc)], None).
(** text.py:240-251: filterOpenSubtitles *)
Section Strip.
  Variable isspace : N -> bool.
  Fixpoint lstrip (t : text) : text := match t with c :: t' => if isspace c then lstrip t' else t | [] => [] end.
  Definition strip (t : text) : text := rev (lstrip (rev (lstrip t))).
  Definition filterOpenSubtitles (doc : list dnode) : gen text :=
    ([joinL [10%N] (map (fun cs => strip (dtext cs)) (byTagName "s" doc))], None).
End Strip.
