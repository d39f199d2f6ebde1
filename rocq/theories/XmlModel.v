(** Model of the text of the XML files of renderAsk and renderKeylayout,
    lulua/render.py:403-468, 514-556, and of xml.etree.ElementTree (Python 3.11)
    as far as it writes them.  ExportModel.v has the contents. *)
From Coq Require Import QArith Ascii.
From Verif Require Import Base LayoutModel DataKeyboard RenderModel KlcModel CsrcModel ExportModel FilesModel.
Close Scope Q_scope.
Open Scope string_scope.
Open Scope list_scope.

(** * xml.etree.ElementTree *)
(** Elements have neither text nor tail; names have no namespaces in braces. *)
Inductive elem := El (tag : string) (attrs : list (string * text)) (kids : list elem).
(** [text.replace (c, by)] *)
Definition replace (c : N) (by_ : text) (t : text) : text := flat_map (fun x => if (x =? c)%N then by_ else [x]) t.
(** ElementTree.py:1039-1065 *)
Definition escapeAttrib (t : text) : text :=
  let t := replace 38 (lit "&amp;") t in
  let t := replace 60 (lit "&lt;") t in
  let t := replace 62 (lit "&gt;") t in
  let t := replace 34 (lit "&quot;") t in
  let t := replace 13 (lit "&#13;") t in
  let t := replace 10 (lit "&#10;") t in
  replace 9 (lit "&#09;") t.
(** ElementTree.py:901 *)
Definition attrText (kv : string * text) : text := lit " " ++ lit (fst kv) ++ lit "=" ++ quote ++ escapeAttrib (snd kv) ++ quote.
(** ElementTree.py:865-913 *)
Fixpoint serialize (e : elem) : text :=
  match e with
  | El tag attrs kids =>
      lit "<" ++ lit tag ++ flat_map attrText attrs ++
      match kids with
      | [] => lit " />"
      | _ => lit ">" ++ flat_map serialize kids ++ lit "</" ++ lit tag ++ lit ">"
      end
  end.

(** * Anysoft keyboard *)
(** [f'{...:.2f}%p'] *)
Definition widthText (w : Z) : text :=
  let n := Z.to_N w in dec (n / 100) ++ lit "." ++ dec (n mod 100 / 10) ++ dec (n mod 10) ++ lit "%p".
(** render.py:446-453, 468: the attributes of a key *)
Definition askKeyElem (k : option akey) : elem :=
  El "Key" match k with
           | Some k => [("android:codes", join (lit ",") (map dec (acodes k))); ("android:keyLabel", alabel k);
                        ("android:popupCharacters", apopup k); ("ask:hintLabel", ahint k)]
           | None => []
           end [].
(** render.py:429-437, 456 *)
Definition askRowElem (r : arow) : elem :=
  El "Row" (match awidth r with Some w => [("android:keyWidth", widthText w)] | None => [] end
            ++ (if atop r then [("android:rowEdgeFlags", lit "top"); ("android:keyHeight", lit "@integer/key_short_height")] else [])
            ++ (if abottom r then [("android:rowEdgeFlags", lit "bottom"); ("android:keyHeight", lit "@integer/key_normal_height")] else []))
    (map askKeyElem (akeys r)).
(** render.py:417-421 *)
Definition askTree (rs : list arow) : elem :=
  El "Keyboard" [("xmlns:android", lit "http://schemas.android.com/apk/res/android"); ("xmlns:ask", lit "http://schemas.android.com/apk/res-auto")]
    (map askRowElem rs).
(** render.py:403-468: the file is opened last *)
Definition askFile (nfc : text -> text) (kb : kbd) (L : layout) : res text :=
  do rs <- renderAsk nfc kb L; Ok (lit "<?xml version='1.0' encoding='utf-8'?>" ++ nl ++ serialize (askTree rs)).

(** * macOS *)
(** [str] of a number *)
Definition str (n : nat) : text := dec (N.of_nat n).
(** render.py:528-549 *)
Definition keylayoutTree (name : text) (m : mkeylayout) : elem :=
  El "keyboard" [("group", lit "0"); ("id", lit "14242"); ("name", name); ("maxout", lit "3")]
    [El "modifierMap" [("id", str 0); ("defaultIndex", lit "0")]
       (map (fun s => El "keyMapSelect" [("mapIndex", str (fst s))] [El "modifier" [("keys", lit (snd s))] []]) (mselect m));
     El "keyMapSet" [("id", str 1)]
       (map (fun ik => El "keyMap" [("index", str (fst ik))]
                         (map (fun ct => El "key" [("code", dec (fst ct)); ("output", snd ct)] []) (snd ik))) (mmaps m));
     El "layouts" [] [El "layout" [("first", lit "0"); ("last", lit "0"); ("modifiers", str 0); ("mapSet", str 1)] []]].
(** render.py:551-553 *)
Definition keylayoutDecl : text :=
  join nl [lit "<?xml version=" ++ quote ++ lit "1.0" ++ quote ++ lit " encoding=" ++ quote ++ lit "utf-8" ++ quote ++ lit "?>";
           lit "<!DOCTYPE keyboard PUBLIC " ++ quote ++ quote ++ lit " " ++ quote ++ lit "file://localhost/System/Library/DTDs/KeyboardLayout.dtd" ++ quote ++ lit ">";
           []].
(** render.py:545: codes are looked up first *)
Definition macCodes (kb : kbd) (L : layout) : res (list (list N)) :=
  mapM (fun l => mapM (fun bt => do b <- button kb (fst bt); of_opt KeyError (kb_macos b)) (llayout l)) (layers L).
(** render.py:514-556: without codes there is no file; texts that are none are noticed after the declaration *)
Definition keylayoutFile (name : text) (kb : kbd) (L : layout) : res written :=
  do _ <- macCodes kb L;
  Ok match renderKeylayout kb L with
     | Ok m => (keylayoutDecl ++ serialize (keylayoutTree name m), None)
     | Raise e => (keylayoutDecl, Some e)
     end.
