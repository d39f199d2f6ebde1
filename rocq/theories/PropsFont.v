(** C102: fonts are part of the pictures. *)
From Coq Require Import QArith Ascii Lia.
From Verif Require Import Base LayoutModel KlcModel CsrcModel RenderModel SvgModel SvgSpec PropsSvg FontModel FilesSpec XmlSpec FontSpec FilesProofs FontProofs.
Close Scope Q_scope.
Open Scope string_scope.
Open Scope list_scope.

(** The two fonts of the pictures, with the contents of their files *)
Definition plex (w : N) (bytes : list N) : face := mkFace (lit sans) (lit "normal") w (lit "woff2") (lit "application/font-woff2") bytes.
Definition thin_file : string := "3rdparty/plex/IBM-Plex-Sans-Arabic/fonts/complete/woff2/IBMPlexSansArabic-Thin.woff2".
Definition regular_file : string := "3rdparty/plex/IBM-Plex-Sans-Arabic/fonts/complete/woff2/IBMPlexSansArabic-Regular.woff2".

(** Any file survives base 64. *)
Theorem C102_base64 bytes : Forall (fun b => b < 256)%N bytes -> b64decode (b64encode bytes) = Some bytes.
Proof. exact (decode_encode bytes). Qed.
Example C102_foobar : b64encode (lit "foobar") = lit "Zm9vYmFy" /\ b64encode (lit "fooba") = lit "Zm9vYmE=" /\ b64encode (lit "foob") = lit "Zm9vYg==" /\
  b64decode (lit "Zm9vYg==") = Some (lit "foob") /\ b64decode (lit "Zm9vYh==") = None /\ b64decode (lit "Zm9vYg=") = None /\ b64decode (lit "Zm9v!g==") = None.
Proof. repeat split; vm_compute; reflexivity. Qed.

(** Its length is four thirds, rounded up. *)
Theorem C102_size bytes : List.length (b64encode bytes) = 4 * ((List.length bytes + 2) / 3).
Proof.
  induction bytes as [|a|a b|a b c l IH] using triples; try reflexivity. cbn [b64encode app List.length]. rewrite IH.
  replace (S (S (S (List.length l))) + 2) with (1 * 3 + (List.length l + 2)) by lia. rewrite Nat.div_add_l by discriminate. lia.
Qed.

(** Whatever the two files and the style sheet are, a browser finds both files as they are, with family and weight; the style sheet is left
    as it is. *)
Theorem C102_faces read sheet thin regular fs rest : read thin_file = Ok thin -> read regular_file = Ok regular ->
  Forall (fun b => b < 256)%N thin -> Forall (fun b => b < 256)%N regular -> sheet_faces sheet = Some (fs, rest) ->
  exists t, styleText read sheet = Ok t /\ sheet_faces t = Some (plex 100 thin :: plex 400 regular :: fs, rest).
Proof.
  intros Et Er Bt Br Es. exists (fontFace sans 100 (b64encode thin) ++ fontFace sans 400 (b64encode regular) ++ sheet). split.
  - unfold styleText, fonts. cbn [foldM]. fold thin_file regular_file. rewrite Et. cbn [bind]. rewrite Er. cbn [bind app]. rewrite <- app_assoc. reflexivity.
  - assert (T : forall l, Forall byte l -> Forall tame (b64encode l)) by (intros l B; apply Forall_forall; intros c I; exact (encode_chars l c B I)).
    unfold sheet_faces in *. apply (faces_more (S (S (S (List.length sheet))))).
    + unfold plex. apply faces_read; [reflexivity|apply T, Bt|apply decode_encode, Bt|]. apply faces_read; [reflexivity|apply T, Br|apply decode_encode, Br|exact Es].
    + rewrite !app_length. unfold fontFace. cbn [join app]. rewrite !app_length. cbn [List.length nl]. lia.
Qed.
Example C102_shipped : forall sheet, In sheet [lit "/* screen */ text { fill: black; }"; []] ->
  sheet_faces sheet = Some ([], sheet) /\
  exists t, styleText (fun p => if String.eqb p thin_file then Ok [0; 255; 34; 59]%N else if String.eqb p regular_file then Ok [125; 10]%N else Raise PlainException) sheet = Ok t /\
    sheet_faces t = Some ([plex 100 [0; 255; 34; 59]%N; plex 400 [125; 10]%N], sheet).
Proof. intros sheet [<-|[<-|[]]]; (split; [vm_compute; reflexivity|]); (eexists; split; [reflexivity|vm_compute; reflexivity]). Qed.
(** A sheet with rules of its own is read on. *)
Example C102_own_face : exists t, styleText (fun _ => Ok [1%N]) (fontFace "Other" 700 (b64encode [2%N]) ++ lit "text { }") = Ok t /\
  option_map (fun x => (map f_family (fst x), snd x)) (sheet_faces t) = Some ([lit sans; lit sans; lit "Other"], lit "text { }").
Proof. eexists. split; [reflexivity|vm_compute; reflexivity]. Qed.

(** All texts of pictures are either in one of these fonts or in the generic one without serifs, which each browser has. *)
Definition embedded (l : list face) (st : style) : Prop := exists f, In f l /\ f_family f = lit (family st) /\ (inject_Z (Z.of_N (f_weight f)) == weight st)%Q.
Theorem C102_used read sheet t l r css ds x y s st : (forall p bs, read p = Ok bs -> Forall (fun b => b < 256)%N bs) -> sheet_faces sheet <> None ->
  styleText read sheet = Ok t -> sheet_faces t = Some (l, r) ->
  In css [css_screen; css_print] -> In (Span x y s, st) (looks css (document ds)) -> embedded l st \/ family st = "sans-serif".
Proof.
  intros B Ns Es El. assert (P : exists bt br, In (plex 100 bt) l /\ In (plex 400 br) l).
  { destruct (read thin_file) as [bt|] eqn:Et; [destruct (read regular_file) as [br|] eqn:Er|].
    - destruct (sheet_faces sheet) as [[fs rest]|] eqn:F; [|congruence].
      destruct (C102_faces read sheet bt br fs rest Et Er (B _ _ Et) (B _ _ Er) F) as (t' & E1 & E2). rewrite Es in E1. injection E1 as <-. rewrite El in E2. injection E2 as -> ->.
      exists bt, br. split; cbn; auto.
    - exfalso. unfold styleText, fonts in Es. cbn [foldM] in Es. fold thin_file regular_file in Es. rewrite Et in Es. cbn [bind] in Es. rewrite Er in Es. discriminate Es.
    - exfalso. unfold styleText, fonts in Es. cbn [foldM] in Es. fold thin_file regular_file in Es. rewrite Et in Es. discriminate Es. }
  destruct P as (bt & br & It & Ir).
  assert (G : forall c, In (Span x y s, st) (look c ds) -> embedded l st \/ family st = "sans-serif").
  { intros c I. unfold look in I. repeat (apply in_app_or in I as [I|I]); apply in_flat_map in I as (d & Id & I).
    - unfold look_shadow in I. destruct (d_shadow d) as [[r0 [h f]]|]; [destruct I as [I|[]]; discriminate I|destruct I].
    - unfold look_cap in I. destruct I as [I|I]; [discriminate I|]. destruct (d_marker d) as [|[p q] [|[p' q'] [|]]]; try destruct I as [I|[I|[]]]; try discriminate I; destruct I.
    - unfold look_heat in I. destruct (d_highlight d) as [[[[o cx] cy] r0]|]; [destruct I as [I|[]]; discriminate I|destruct I].
    - apply in_flat_map in I as (lb & Il & I). unfold look_text in I. destruct (l_control lb).
      + destruct I as [I|[I|[]]]; [discriminate I|]. right. injection I as _ _ _ <-. reflexivity.
      + destruct I as [I|[]]. left. injection I as _ _ _ <-. unfold embedded. cbn [family weight]. destruct (l_layer lb =? 0)%nat.
        * exists (plex 400 br). split; [exact Ir|]. split; reflexivity.
        * exists (plex 100 bt). split; [exact It|]. split; reflexivity. }
  intros [<-|[<-|[]]] I; [rewrite C92_screen in I|rewrite C92_print in I]; exact (G _ I).
Qed.
(** Both fonts are needed. *)
Theorem C102_needed : forall f n p, In (f, n, p) fonts -> exists ds x y s st, In (Span x y s, st) (looks css_screen (document ds)) /\ family st = f /\ (weight st == inject_Z (Z.of_N n))%Q.
Proof.
  intros f n p [E|[E|[]]]; injection E as <- <- <-.
  - exists some_keys, 0%Q, 0%Q, [97%N], (mkStyle "#657b83" "none" 72 100 sans 1). rewrite C92_screen. split; [|split; reflexivity].
    unfold look. apply in_or_app. right. apply in_or_app. right. apply in_or_app. right. apply in_flat_map. exists (key_with INDEX false false false). split; [cbn; auto 6|].
    apply in_flat_map. exists (mkLabel 1 0 0 [97%N] false false). split; [cbn; auto 9|left; reflexivity].
  - exists some_keys, 0%Q, 0%Q, [97%N], (mkStyle "#657b83" "none" 90 400 sans 1). rewrite C92_screen. split; [|split; reflexivity].
    unfold look. apply in_or_app. right. apply in_or_app. right. apply in_or_app. right. apply in_flat_map. exists (key_with INDEX false false false). split; [cbn; auto 6|].
    apply in_flat_map. exists (mkLabel 0 0 0 [97%N] false false). split; [cbn; auto 9|left; reflexivity].
Qed.

(** One file that cannot be read is enough: there is no picture (it is saved later, 300). *)
Theorem C102_missing read sheet e : (read thin_file = Raise e \/ exists b, read thin_file = Ok b /\ read regular_file = Raise e) <-> styleText read sheet = Raise e.
Proof.
  unfold styleText, fonts. cbn [foldM]. fold thin_file regular_file. destruct (read thin_file) as [b|e'] eqn:E; cbn [bind].
  - destruct (read regular_file) as [b'|e'] eqn:E'; cbn [bind]; split; intros H; try discriminate H.
    + destruct H as [H|(b0 & _ & H)]; discriminate H.
    + destruct H as [H|(b0 & _ & H)]; [discriminate H|injection H as <-; reflexivity].
    + injection H as <-. right. exists b. auto.
  - split; intros H; [destruct H as [H|(b0 & H & _)]; [injection H as <-; reflexivity|discriminate H]|injection H as <-; auto].
Qed.

(** Fonts do not end the block the style is in: neither CDATA nor an element. *)
Theorem C102_cdata read t : (forall p bs, read p = Ok bs -> Forall (fun b => b < 256)%N bs) -> styleText read [] = Ok t -> ~ In 93%N t /\ ~ In 60%N t /\ ~ In 38%N t.
Proof.
  intros B E.
  set (ok := fun c => negb ((c =? 93) || (c =? 60) || (c =? 38))%N).
  assert (F : forall w bs, Forall (fun b => b < 256)%N bs -> forallb ok (fontFace sans w (b64encode bs)) = true).
  { intros w bs Bb. assert (D : forallb ok (dec w) = true).
    { apply forallb_forall. intros c I. apply dec_digit in I. unfold ok. apply negb_true_iff. repeat (apply orb_false_iff; split); apply N.eqb_neq; lia. }
    assert (D' : forallb ok (b64encode bs) = true).
    { apply forallb_forall. intros c I. apply (encode_chars bs c Bb) in I. unfold b64c in I. unfold ok. apply negb_true_iff. repeat (apply orb_false_iff; split); apply N.eqb_neq; lia. }
    unfold fontFace. cbn [join app]. rewrite !forallb_app, D, D'. reflexivity. }
  unfold styleText, fonts in E. cbn [foldM] in E. fold thin_file regular_file in E. destruct (read thin_file) as [b|] eqn:Et; [|discriminate E]. cbn [bind] in E.
  destruct (read regular_file) as [b'|] eqn:Er; [|discriminate E]. cbn [bind app] in E. rewrite app_nil_r in E. injection E as <-. apply B in Et, Er.
  assert (G : forallb ok (fontFace sans 100 (b64encode b) ++ fontFace sans 400 (b64encode b')) = true) by (rewrite forallb_app, (F 100%N b Et), (F 400%N b' Er); reflexivity).
  rewrite forallb_forall in G. repeat split; intros I; apply G in I; discriminate I.
Qed.

Print Assumptions C102_base64.
Print Assumptions C102_size.
Print Assumptions C102_faces.
Print Assumptions C102_used.
Print Assumptions C102_needed.
Print Assumptions C102_missing.
Print Assumptions C102_cdata.
