(** Model of lulua/text.py:464-478 (extractMediawiki), of the JSON of its output and
    of reading it again, text.py:208-209, 345-352, 436-437. *)
From Verif Require Import Base TextModel FilterModel KlcModel.
Open Scope string_scope.
Open Scope list_scope.

(** * text.py:473: xml.etree.ElementTree.iterparse *)
(** What expat reports: a start tag, text (maybe in pieces), an end tag, comments and
    the like.  [Elem]: tag, text and children with their tails. *)
Inductive xtok := XStart (tag : string) | XText (t : text) | XEnd | XOther.
Inductive elem := Elem (tag : string) (txt : option text) (children : list (elem * option text)).
Definition elem_tag (e : elem) : string := match e with Elem tag _ _ => tag end.
(** An element whose end tag was not seen yet, the last child being the first of
    [o_children] *)
Record opened := mkO { o_tag : string; o_text : option text; o_children : list (elem * option text) }.
(** TreeBuilder: the stack of elements, the text not attached yet and whether it is
    going to be the tail of the last child *)
Record builder := mkB { b_stack : list opened; b_data : list text; b_tail : bool }.
Definition b_new : builder := mkB [] [] false.
(** TreeBuilder._flush *)
Definition flush (b : builder) : builder :=
  match b_data b with
  | [] => b
  | d =>
      match b_stack b with
      | [] => mkB [] [] (b_tail b)
      | o :: os =>
          let t := concat d in
          let o' :=
            if b_tail b then
              match o_children o with
              | (e, _) :: cs => mkO (o_tag o) (o_text o) ((e, Some t) :: cs)
              | [] => o
              end
            else mkO (o_tag o) (Some t) (o_children o) in
          mkB (o' :: os) [] (b_tail b)
      end
  end.
(** TreeBuilder.start, data, end; the element of the 'end' event.  Text outside of the
    root is not reported by expat. *)
Definition feed (b : builder) (k : xtok) : builder * option elem :=
  match k with
  | XOther => (b, None)
  | XText t => (mkB (b_stack b) (b_data b ++ [t]) (b_tail b), None)
  | XStart tag => let b := flush b in (mkB (mkO tag None [] :: b_stack b) (b_data b) false, None)
  | XEnd =>
      let b := flush b in
      match b_stack b with
      | [] => (b, None)
      | o :: os =>
          let e := Elem (o_tag o) (o_text o) (rev (o_children o)) in
          let os' := match os with [] => [] | p :: os' => mkO (o_tag p) (o_text p) ((e, None) :: o_children p) :: os' end in
          (mkB os' (b_data b) true, Some e)
      end
  end.
(** The 'end' events *)
Fixpoint iterparse (b : builder) (l : list xtok) : list elem :=
  match l with
  | [] => []
  | k :: l' => let (b', e) := feed b k in (match e with Some x => [x] | None => [] end) ++ iterparse b' l'
  end.
Definition otext (t : option text) : text := match t with Some u => u | None => [] end.
(** Element.itertext, joined *)
Fixpoint itertext (e : elem) : text :=
  match e with Elem _ t cs => otext t ++ flat_map (fun p => itertext (fst p) ++ otext (snd p)) cs end.

(** * text.py:476: json.dump (text, ensure_ascii=False) *)
Definition hexdigit (n : N) : N := if (n <? 10)%N then (48 + n)%N else (87 + n)%N.
Definition json_escape (c : N) : text :=
  if (c =? 34)%N then [92; 34]%N
  else if (c =? 92)%N then [92; 92]%N
  else if (c =? 10)%N then [92; 110]%N
  else if (c =? 13)%N then [92; 114]%N
  else if (c =? 9)%N then [92; 116]%N
  else if (c =? 12)%N then [92; 102]%N
  else if (c =? 8)%N then [92; 98]%N
  else if (c <? 32)%N then [92; 117; 48; 48; hexdigit (c / 16); hexdigit (c mod 16)]%N
  else [c].
Definition json_dump (t : text) : text := 34%N :: flat_map json_escape t ++ [34%N].
(** text.py:474 *)
Definition wikitag : string := "{http://www.mediawiki.org/xml/export-0.10/}text".
(** text.py:473-477: what is written for one event *)
Definition page (e : elem) : text :=
  if eqb (elem_tag e) wikitag then json_dump (itertext e) ++ [10%N] else [].
(** text.py:467-477: the output, and the exception of the parser if the dump is broken *)
Definition extractMediawiki (fd : gen xtok) : text * option exn := (flat_map page (iterparse b_new (fst fd)), snd fd).

(** * text.py:436: for l in sys.stdin *)
(** Lines end with \n, \r or \r\n, all of them turned into \n; [cur] is the beginning
    of the line, in reverse order *)
Fixpoint stdin_lines (cur : text) (t : text) : list text :=
  match t with
  | [] => match cur with [] => [] | _ => [rev cur] end
  | c :: t1 =>
      if (c =? 10)%N then rev (10%N :: cur) :: stdin_lines [] t1
      else if (c =? 13)%N then
        rev (10%N :: cur) ::
        match t1 with
        | d :: t2 => if (d =? 10)%N then stdin_lines [] t2 else stdin_lines [] t1
        | [] => stdin_lines [] t1
        end
      else stdin_lines (c :: cur) t1
  end.

(** * text.py:208-209: json.loads *)
(** [JScalar] is a number or boolean. *)
Inductive jvalue := JStr (t : text) | JNull | JScalar | JArr (l : list jvalue).
Definition hexval (c : N) : option N :=
  if ((48 <=? c) && (c <=? 57))%N then Some (c - 48)%N
  else if ((97 <=? c) && (c <=? 102))%N then Some (c - 87)%N
  else if ((65 <=? c) && (c <=? 70))%N then Some (c - 55)%N
  else None.
Definition hex4val (a b c d : N) : option N :=
  match hexval a, hexval b, hexval c, hexval d with
  | Some a', Some b', Some c', Some d' => Some (((a' * 16 + b') * 16 + c') * 16 + d')%N
  | _, _, _, _ => None
  end.
Definition is_high (u : N) : bool := ((0xD800 <=? u) && (u <=? 0xDBFF))%N.
Definition is_low (u : N) : bool := ((0xDC00 <=? u) && (u <=? 0xDFFF))%N.
Definition join_surrogates (u v : N) : N := (0x10000 + (u - 0xD800) * 1024 + (v - 0xDC00))%N.
Definition backslash (c : N) : option N :=
  dget [(34, 34); (92, 92); (47, 47); (98, 8); (102, 12); (110, 10); (114, 13); (116, 9)]%N c.
Definition consj (c : N) (r : option (text * text)) : option (text * text) :=
  match r with Some (t, rest) => Some (c :: t, rest) | None => None end.
(** json.scanner.scanstring (strict): the string and what follows the closing quote *)
Fixpoint scanstring (t : text) : option (text * text) :=
  match t with
  | [] => None
  | c :: t1 =>
      if (c =? 34)%N then Some ([], t1)
      else if (c =? 92)%N then
        match t1 with
        | [] => None
        | e :: t2 =>
            if (e =? 117)%N then
              match t2 with
              | h1 :: h2 :: h3 :: h4 :: t3 =>
                  match hex4val h1 h2 h3 h4 with
                  | None => None
                  | Some u =>
                      if is_high u then
                        match t3 with
                        | x :: y :: g1 :: g2 :: g3 :: g4 :: t4 =>
                            if ((x =? 92) && (y =? 117))%N then
                              match hex4val g1 g2 g3 g4 with
                              | None => None
                              | Some v => if is_low v then consj (join_surrogates u v) (scanstring t4) else consj u (scanstring t3)
                              end
                            else consj u (scanstring t3)
                        | _ => consj u (scanstring t3)
                        end
                      else consj u (scanstring t3)
                  end
              | _ => None
              end
            else match backslash e with Some x => consj x (scanstring t2) | None => None end
        end
      else if (c <? 32)%N then None
      else consj c (scanstring t1)
  end.
Definition json_space (c : N) : bool := ((c =? 32) || (c =? 9) || (c =? 10) || (c =? 13))%N.
Fixpoint skip_space (t : text) : text :=
  match t with c :: t1 => if json_space c then skip_space t1 else t | [] => [] end.
Section Json.
  (** Documents that are neither a string nor null *)
  Variable other : text -> res jvalue.
  (** json.loads; JSONDecodeError is a ValueError *)
  Definition json_loads (s : text) : res jvalue :=
    match skip_space s with
    | 34%N :: t1 =>
        match scanstring t1 with
        | Some (t, rest) => match skip_space rest with [] => Ok (JStr t) | _ => Raise ValueError end
        | None => Raise ValueError
        end
    | t =>
        if KlcModel.starts (lit "null") t then match skip_space (skipn 4 t) with [] => Ok JNull | _ => Raise ValueError end
        else other s
    end.
  (** text.py:208-209; items that are no strings are rejected by json.loads *)
  Definition filterJson (item : jvalue) : gen jvalue :=
    match item with
    | JStr s => match json_loads s with Ok v => ([v], None) | Raise e => ([], Some e) end
    | _ => ([], Some TypeError)
    end.
End Json.
(** text.py:319-321 for a value of JSON: [m.get (x, x)] of each element, joined.  Only
    strings can be joined. *)
Definition mapChars_elem (x : jvalue) : res text :=
  match x with
  | JStr [c] => Ok (mapChars charMap [c])
  | JStr t => Ok t
  | _ => Raise TypeError
  end.
Definition mapChars_value (v : jvalue) : res text :=
  match v with
  | JStr t => Ok (mapChars charMap t)
  | JArr l => do ts <- mapM mapChars_elem l; Ok (concat ts)
  | _ => Raise TypeError
  end.
(** text.py:352 *)
Definition worker_text (v : jvalue) : res text := do t <- mapChars_value v; Ok (replace_crlf t).
(** text.py:345, 352: all texts of an item, up to the first exception *)
Definition item_texts (fs : list (jvalue -> gen jvalue)) (item : text) : gen text :=
  let (vs, e) := apply_gen fs ([JStr item], None) in
  gchain (fun v => match worker_text v with Ok t => ([t], None) | Raise ex => ([], Some ex) end) vs e.
