(** XML 1.0 documents (the part needed), and what macOS and Anysoft keyboard read from them. *)
From Coq Require Import QArith Ascii.
From Verif Require Import Base LayoutModel DataKeyboard KlcModel ExportModel ExportSpec FilesSpec.
Close Scope Q_scope.
Open Scope string_scope.
Open Scope list_scope.

Inductive xml := Xml (tag : text) (attrs : list (text * text)) (kids : list xml).
Definition tag (x : xml) : text := match x with Xml t _ _ => t end.
Definition attrs (x : xml) : list (text * text) := match x with Xml _ a _ => a end.
Definition kids (x : xml) : list xml := match x with Xml _ _ k => k end.

(** * Reading *)
Definition is_ws (c : N) : bool := ((c =? 32) || (c =? 9) || (c =? 10) || (c =? 13))%N.
Fixpoint skip (t : text) : text := match t with c :: t' => if is_ws c then skip t' else t | [] => [] end.
(** Names: ASCII only *)
Definition name_start (c : N) : bool := (((65 <=? c) && (c <=? 90)) || ((97 <=? c) && (c <=? 122)) || (c =? 95) || (c =? 58))%N.
Definition name_char (c : N) : bool := (name_start c || ((48 <=? c) && (c <=? 57)) || (c =? 45) || (c =? 46))%N.
Fixpoint span (p : N -> bool) (t : text) : text * text :=
  match t with c :: t' => if p c then let (a, b) := span p t' in (c :: a, b) else ([], t) | [] => ([], []) end.
Definition read_name (t : text) : option (text * text) :=
  match span name_char t with (c :: n, r) => if name_start c then Some (c :: n, r) else None | _ => None end.
(** &name; and &#number; *)
Definition entity (b : text) : option N :=
  if eqb b (lit "amp") then Some 38%N else if eqb b (lit "lt") then Some 60%N else if eqb b (lit "gt") then Some 62%N
  else if eqb b (lit "quot") then Some 34%N else if eqb b (lit "apos") then Some 39%N
  else match b with
       | 35%N :: 120%N :: ((_ :: _) as h) => match hexnum 0 h with Some c => if xml_char c then Some c else None | None => None end
       | 35%N :: ((_ :: _) as d) => match number 0 d with Some c => if xml_char c then Some c else None | None => None end
       | _ => None
       end.
Definition is_semi (c : N) : bool := (c =? 59)%N.
(** The value of an attribute up to the quote [q]; white space written literally is read as blanks. *)
Fixpoint read_value (fuel : nat) (q : N) (t : text) : option (text * text) :=
  match fuel, t with
  | S f, c :: t' =>
      if (c =? q)%N then Some ([], t')
      else if (c =? 60)%N then None
      else if (c =? 38)%N then
        match cut is_semi t' with
        | (b, Some r) => match entity b, read_value f q r with Some c, Some (v, r) => Some (c :: v, r) | _, _ => None end
        | _ => None
        end
      else if is_ws c then match read_value f q t' with Some (v, r) => Some (32%N :: v, r) | None => None end
      else if xml_char c then match read_value f q t' with Some (v, r) => Some (c :: v, r) | None => None end
      else None
  | _, _ => None
  end.
Definition is_q (c : N) : bool := ((c =? 34) || (c =? 39))%N.
(** name="value" *)
Definition read_attr (t : text) : option (text * text * text) :=
  match read_name t with
  | Some (n, e :: q :: r) =>
      if (e =? 61)%N && is_q q then match read_value (List.length r) q r with Some (v, r) => Some (n, v, r) | None => None end else None
  | _ => None
  end.
(** Attributes with white space before each *)
Fixpoint read_attrs (fuel : nat) (t : text) : option (list (text * text) * text) :=
  match fuel, t with
  | S f, c :: _ =>
      if is_ws c then
        match skip t with
        | (d :: _) as t' => if ((d =? 47) || (d =? 62))%N then Some ([], t')
                          else match read_attr t' with
                               | Some (n, v, r) => match read_attrs f r with Some (l, r) => Some ((n, v) :: l, r) | None => None end
                               | None => None
                               end
        | [] => None
        end
      else Some ([], t)
  | _, _ => None
  end.
(** An element; there is only white space between elements. *)
Fixpoint read_elem (fuel : nat) (t : text) : option (xml * text) :=
  match fuel with
  | O => None
  | S f =>
      match after (lit "<") t with
      | Some t =>
          match read_name t with
          | Some (n, t) =>
              match read_attrs (S (List.length t)) t with
              | Some (a, t) =>
                  if nodupb (map fst a) then
                    match after (lit "/>") t with
                    | Some r => Some (Xml n a [], r)
                    | None =>
                        match after (lit ">") t with
                        | Some t =>
                            match read_kids f t with
                            | Some (k, t) => match read_name t with
                                             | Some (n', t) => match after (lit ">") (skip t) with
                                                               | Some r => if eqb n n' then Some (Xml n a k, r) else None
                                                               | None => None end
                                             | None => None end
                            | None => None
                            end
                        | None => None
                        end
                    end
                  else None
              | None => None
              end
          | None => None
          end
      | None => None
      end
  end
with read_kids (fuel : nat) (t : text) : option (list xml * text) :=
  match fuel with
  | O => None
  | S f =>
      match after (lit "</") (skip t) with
      | Some r => Some ([], r)
      | None => match read_elem f (skip t) with
                | Some (x, r) => match read_kids f r with Some (k, r) => Some (x :: k, r) | None => None end
                | None => None
                end
      end
  end.
Definition is_gt (c : N) : bool := (c =? 62)%N.
(** A document: declaration, document type without internal subset, one element *)
Definition read_decl (t : text) : option text :=
  match after (lit "<?xml ") t with
  | Some t => match cut is_gt t with (d, Some r) => match rev d with 63%N :: _ => Some r | _ => None end | _ => None end
  | None => None
  end.
Definition read_type (t : text) : option text :=
  match after (lit "<!DOCTYPE ") t with
  | Some t' => match cut is_gt t' with (d, Some r) => if mem 91%N d then None else Some r | _ => None end
  | None => Some t
  end.
Definition read_doc (t : text) : option xml :=
  match read_decl t with
  | Some t => match read_type (skip t) with
              | Some t => match read_elem (S (List.length t)) (skip t) with Some (x, r) => match skip r with [] => Some x | _ => None end | None => None end
              | None => None
              end
  | None => None
  end.

(** * Namespaces: prefixes of attributes are declared by xmlns:prefix. *)
Definition is_colon (c : N) : bool := (c =? 58)%N.
Definition prefix_of (n : text) : option text := match cut is_colon n with (p, Some _) => Some p | _ => None end.
Definition declared (a : list (text * text)) : list text := flat_map (fun nv => match after (lit "xmlns:") (fst nv) with Some p => [p] | None => [] end) a.
Fixpoint ns_ok (bound : list text) (x : xml) : bool :=
  match x with
  | Xml t a k => let bound := declared a ++ bound in
      forallb (fun n => match prefix_of n with Some p => eqb p (lit "xmlns") || mem p bound | None => true end) (t :: map fst a) && forallb (ns_ok bound) k
  end.

(** * macOS *)
Definition attr (x : xml) (n : string) : option text := dget (attrs x) (lit n).
Definition named_kids (x : xml) (n : string) : list xml := filter (fun k => eqb (tag k) (lit n)) (kids x).
Definition num (x : xml) (n : string) : option N := match attr x n with Some ((_ :: _) as t) => number 0 t | _ => None end.
Definition has (x : xml) (n : string) (v : N) : bool := match num x n with Some m => (m =? v)%N | None => false end.
(** Technical Note TN2056: the layout element for a type of keyboard ([first] to [last]; types from 0 on, the first layout is the default)
    tells the modifierMap, which tells the index of the keyMap for modifiers, and the keyMapSet. *)
Definition kl_types (x : xml) (mods : text) (code : N) : list text :=
  flat_map (fun la =>
    match attr la "modifiers", attr la "mapSet" with
    | Some mm, Some ms =>
        flat_map (fun ks =>
          if existsb (fun m => eqb (attr m "keys") (Some mods)) (named_kids ks "modifier") then
            match num ks "mapIndex" with
            | Some i => flat_map (fun km => if has km "index" i then
                                              flat_map (fun k => if has k "code" code then match attr k "output" with Some t => [t] | None => [] end else []) (named_kids km "key")
                                            else [])
                          (flat_map (fun s => if eqb (attr s "id") (Some ms) then named_kids s "keyMap" else []) (named_kids x "keyMapSet"))
            | None => []
            end
          else [])
          (flat_map (fun s => if eqb (attr s "id") (Some mm) then named_kids s "keyMapSelect" else []) (named_kids x "modifierMap"))
    | _, _ => []
    end) (firstn 1 (flat_map (fun l => named_kids l "layout") (named_kids x "layouts"))).

(** * Anysoft keyboard *)
Definition is_comma (c : N) : bool := (c =? 44)%N.
Definition numbers (t : text) : option (list N) :=
  match t with [] => Some [] | _ => all_of (fun d => match d with [] => None | _ => number 0 d end) (split (S (List.length t)) is_comma t) end.
Definition is_dot (c : N) : bool := (c =? 46)%N.
(** Percent with two decimals, in hundredths *)
Definition width (t : text) : option Z :=
  match cut is_dot t with
  | ((_ :: _) as a, Some [c; d; 37; 112]%N) => match number 0 a, number 0 [c; d] with Some a, Some b => Some (Z.of_N (100 * a + b)) | _, _ => None end
  | _ => None
  end.
Definition ask_key_of (x : xml) : option (option akey) :=
  if negb (eqb (tag x) (lit "Key")) then None
  else match attrs x with
  | [] => Some None
  | _ => match attr x "android:codes", attr x "android:keyLabel", attr x "android:popupCharacters", attr x "ask:hintLabel" with
         | Some c, Some l, Some p, Some h => match numbers c with Some c => Some (Some (mkA c l p h)) | None => None end
         | _, _, _, _ => None
         end
  end.
Definition ask_row_of (x : xml) : option arow :=
  if negb (eqb (tag x) (lit "Row")) then None
  else match (match attr x "android:keyWidth" with Some w => option_map Some (width w) | None => Some None end), all_of ask_key_of (kids x) with
  | Some w, Some ks => let e := attr x "android:rowEdgeFlags" in Some (mkAR w (eqb e (Some (lit "top"))) (eqb e (Some (lit "bottom"))) ks)
  | _, _ => None
  end.
Definition ask_read (x : xml) : option (list arow) := if eqb (tag x) (lit "Keyboard") then all_of ask_row_of (kids x) else None.
