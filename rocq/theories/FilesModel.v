(** Model of the text of the files of renderXmodmap and renderKeyman,
    lulua/render.py:302-401.  ExportModel.v has the lines and rules.  [now] is
    [datetime.utcnow ()], [name] the name of the layout, both as text. *)
From Coq Require Import QArith Ascii.
From Verif Require Import Base LayoutModel DataKeyboard RenderModel KlcModel CsrcModel ExportModel.
Close Scope Q_scope.
Open Scope string_scope.
Open Scope list_scope.

(** What was written to the file, and the exception that ended it *)
Definition written : Type := text * option exn.
(** One after the other, up to the first exception *)
Fixpoint emit {A} (f : A -> written) (l : list A) : written :=
  match l with
  | [] => ([], None)
  | a :: l' => match f a with
               | (t, None) => let (t', e) := emit f l' in (t ++ t', e)
               | (t, Some e) => (t, Some e)
               end
  end.

(** * xmodmap *)
(** render.py:310-321 *)
Definition xmodmapHead (name now : text) : text :=
  join nl [lit "!! auto-generated xmodmap"; lit "!! layout: " ++ name; lit "!! generated: " ++ now; [];
           lit "clear Lock"; lit "clear Mod2"; lit "clear Mod3"; lit "clear Mod5"; []].
(** render.py:363-365 *)
Definition xlineText (x : xline) : text :=
  lit "!! " ++ lit (xname x) ++ nl ++ lit "keycode " ++ dec (xcode x) ++ lit " = " ++ join tab (map lit (xsyms x)) ++ nl.
(** render.py:366 *)
Definition xmodmapTail : text := join nl [lit "add Mod3 = ISO_First_Group"; lit "add Mod5 = ISO_Level3_Shift"; []].
(** render.py:308-366: the head is written before the keys are looked at.  The codes of
    keys are there if the layout could be specialised (C73). *)
Definition xmodmapFile (name now : text) (kb : kbd) (L : layout) : written :=
  match renderXmodmap kb L with
  | Ok xs => (xmodmapHead name now ++ flat_map xlineText xs ++ xmodmapTail, None)
  | Raise e => (xmodmapHead name now, Some e)
  end.

(** * Keyman *)
(** render.py:377-390 *)
Definition keymanHead (name now : text) : text :=
  join nl [lit "c Auto-generated file for Keyman 11.0"; lit "c layout: " ++ name; lit "c generated: " ++ now; [];
           lit "store(&version) " ++ quote ++ lit "9.0" ++ quote;
           lit "store(&name)    " ++ quote ++ name ++ quote;
           lit "store(&mnemoniclayout) " ++ quote ++ lit "0" ++ quote;
           lit "store(&targets) " ++ quote ++ lit "any" ++ quote; [];
           lit "begin Unicode > use(main)"; lit "group(main) using keys"; []].
(** render.py:401 *)
Definition kruleText (r : krule) : text :=
  lit "+ [" ++ join (lit " ") (map lit (kkeys r)) ++ lit "] > " ++ join (lit " ") (map lit (kout r)) ++ nl.
(** render.py:398-401: one key *)
Definition kcellText (kb : kbd) (ms : list string) (bt : string * cell) : written :=
  match krule_of kb ms bt with Ok r => (kruleText r, None) | Raise e => ([], Some e) end.
(** render.py:392-401: one modifier *)
Definition kmodText (kb : kbd) (ord : bset -> list string) (l : layer) (m : bset) : written :=
  match kwarn kb (ord m) with Ok _ => emit (kcellText kb (ord m)) (llayout l) | Raise e => ([], Some e) end.
(** render.py:368-401 *)
Definition keymanFile (name now : text) (kb : kbd) (ord : bset -> list string) (L : layout) : written :=
  let (t, e) := emit (fun l => emit (kmodText kb ord l) (lmods l)) (layers L) in (keymanHead name now ++ t, e).
