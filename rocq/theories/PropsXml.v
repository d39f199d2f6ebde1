(** C101: the XML files for macOS and Anysoft keyboard, render.py:403-468, 514-556. *)
From Coq Require Import QArith Ascii Permutation.
From Verif Require Import Base KeyboardModel LayoutModel LayoutProofs DataKeyboard DataLayouts ShippedProofs PropsLayout PropsRender RenderModel KlcModel CsrcModel ExportModel ExportSpec ExportProofs PropsExport FilesModel FilesSpec FilesProofs XmlModel XmlSpec XmlProofs.
Close Scope Q_scope.
Open Scope string_scope.
Open Scope list_scope.
Unset Implicit Arguments.

(** * ElementTree *)
(** What is written is read back, for every tree whose names are names. *)
Theorem C101_roundtrip e : named e = true -> chars e = true ->
  read_doc (lit "<?xml version='1.0' encoding='utf-8'?>" ++ nl ++ serialize e) = Some (xml_of e) /\ read_doc (keylayoutDecl ++ serialize e) = Some (xml_of e).
Proof. intros A B. assert (G : good e = true) by (rewrite good_split, A, B; reflexivity). split; [apply read_doc_ask, G|apply read_doc_mac, G]. Qed.
(** Nothing can be read if there is a character that XML does not have. *)
Theorem C101_unreadable e : named e = true -> chars e = false ->
  read_doc (lit "<?xml version='1.0' encoding='utf-8'?>" ++ nl ++ serialize e) = None /\ read_doc (keylayoutDecl ++ serialize e) = None.
Proof. intros A B. split; [apply read_doc_bad_ask|apply read_doc_bad_mac]; assumption. Qed.
Theorem C101_needs_names : exists e, chars e = true /\ read_doc (keylayoutDecl ++ serialize e) = None.
Proof. exists (El "a b" [] []). split; vm_compute; reflexivity. Qed.

(** * macOS *)
Lemma kl_named name m : named (keylayoutTree name m) = true.
Proof.
  assert (E : forall t a k, okname t = true -> forallb (fun kv : string * text => okname (fst kv)) a = true -> nodupb (map (fun kv => lit (fst kv)) a) = true -> (forall e, In e k -> named e = true) -> named (El t a k) = true).
  { intros t a k A B C D. cbn [named]. rewrite A, B, C. rewrite (proj2 (forallb_forall named k) D). reflexivity. }
  unfold keylayoutTree. apply E; [vm_compute; reflexivity|vm_compute; reflexivity|vm_compute; reflexivity|].
  intros e [<-|[<-|[<-|[]]]]; (apply E; [vm_compute; reflexivity|vm_compute; reflexivity|vm_compute; reflexivity|]); intros e He.
  - apply in_map_iff in He as (s & <- & _). apply E; [vm_compute; reflexivity|vm_compute; reflexivity|vm_compute; reflexivity|]. intros e [<-|[]]. vm_compute; reflexivity.
  - apply in_map_iff in He as (ik & <- & _). apply E; [vm_compute; reflexivity|vm_compute; reflexivity|vm_compute; reflexivity|]. intros e He. apply in_map_iff in He as (ct & <- & _). vm_compute; reflexivity.
  - destruct He as [<-|[]]. vm_compute; reflexivity.
Qed.
Lemma chars_name t a k : chars (El t a k) = true -> (forall kv, In kv a -> forallb xml_char (snd kv) = true) /\ (forall e, In e k -> chars e = true).
Proof. cbn [chars]. intros H. apply andb_prop in H as [A B]. rewrite forallb_forall in A, B. auto. Qed.
Lemma kl_chars_iff name m : chars (keylayoutTree name m) = true -> forallb xml_char name = true /\ forall ik ct, In ik (mmaps m) -> In ct (snd ik) -> forallb xml_char (snd ct) = true.
Proof.
  intros H. apply chars_name in H as [A B]. split; [apply (A ("name", name)); cbn [In]; tauto|]. intros ik ct I J.
  pose proof (B _ (or_intror (or_introl eq_refl))) as C. apply chars_name in C as [_ C].
  specialize (C _ (in_map _ _ ik I)). apply chars_name in C as [_ C]. specialize (C _ (in_map _ _ ct J)). apply chars_name in C as [C _]. apply (C ("output", snd ct)). right. left. reflexivity.
Qed.
Lemma maps_texts kb ls m : kbd_ok kb -> renderKeylayout kb (layout_new ls) = Ok m ->
  (forall l b s, In l ls -> In (b, CText s) (llayout l) -> forallb xml_char s = true) <-> (forall ik ct, In ik (mmaps m) -> In ct (snd ik) -> forallb xml_char (snd ct) = true).
Proof.
  intros Hk E. apply mac_maps in E as (_ & F & _). split.
  - intros H ik ct I J. apply In_nth_error in I as [i I]. destruct (Forall2_nth_r _ _ _ _ _ F I) as (l & El & Em). apply mapM_Ok_inv in Em. apply In_nth_error in J as [j J].
    destruct (Forall2_nth_r _ _ _ _ _ Em J) as ([b c] & Eb & Hb). apply mkey_spec in Hb; [|exact Hk]. destruct Hb as (k & _ & _ & _ & Et). cbn [snd] in Et.
    apply (H l b (snd ct)); [exact (nth_error_In _ _ El)|]. rewrite <- Et. exact (nth_error_In _ _ Eb).
  - intros H l b s I J. apply In_nth_error in I as [i I]. destruct (Forall2_nth _ F I) as (ik & Ei & Em). apply mapM_Ok_inv in Em. apply In_nth_error in J as [j J].
    destruct (Forall2_nth _ Em J) as (ct & Ec & Hb). apply mkey_spec in Hb; [|exact Hk]. destruct Hb as (k & _ & _ & _ & Et). cbn [snd] in Et.
    assert (s = snd ct) as -> by congruence. exact (H ik ct (nth_error_In _ _ Ei) (nth_error_In _ _ Ec)).
Qed.
Lemma kl_file name kb ls m : kbd_ok kb -> renderKeylayout kb (layout_new ls) = Ok m -> keylayoutFile name kb (layout_new ls) = Ok (keylayoutDecl ++ serialize (keylayoutTree name m), None).
Proof.
  intros Hk E. unfold keylayoutFile. assert (C : coded kb ls).
  { intros l b c I J. destruct (proj1 (mac_success ls Hk) (ex_intro _ m E) l b c I J) as [_ H]. exact H. }
  apply (macCodes_spec kb ls Hk) in C as [cs C]. rewrite C, E. reflexivity.
Qed.
(** With texts of characters XML has, the file makes keys type what the layers say. *)
Theorem C101_keylayout name kb ls : kbd_ok kb -> forallb xml_char name = true ->
  (forall l b c, In l ls -> In (b, c) (llayout l) -> (exists s, c = CText s /\ forallb xml_char s = true) /\ exists k, In k (keys kb) /\ kb_name k = b /\ kb_macos k <> None) ->
  exists t x, keylayoutFile name kb (layout_new ls) = Ok (t, None) /\ read_doc t = Some x /\ tag x = lit "keyboard" /\ attr x "name" = Some name /\
    forall i mods l code s, nth_error [""; "anyShift caps?"; "caps"; "anyOption"] i = Some mods -> nth_error ls i = Some l ->
      (In s (kl_types x (lit mods) code) <-> exists k, In k (keys kb) /\ kb_macos k = Some code /\ In (kb_name k, CText s) (llayout l)).
Proof.
  intros Hk Hn H. destruct (proj2 (mac_success ls Hk)) as [m E].
  { intros l b c I J. destruct (H l b c I J) as [(s & -> & _) K]. split; [discriminate|exact K]. }
  exists (keylayoutDecl ++ serialize (keylayoutTree name m)), (xml_of (keylayoutTree name m)).
  split; [apply kl_file; assumption|]. split; [|split; [reflexivity|split; [reflexivity|]]].
  - apply read_doc_mac, kl_good. split; [exact Hn|]. split.
    + apply mac_maps in E as (-> & _). intros s [<-|[<-|[<-|[<-|[]]]]]; vm_compute; reflexivity.
    + apply (maps_texts kb ls m Hk E). intros l b s I J. destruct (H l b _ I J) as [(s' & X & Y) _]. congruence.
  - intros i mods l code s A B. rewrite kl_types_tree. exact (@mac_types _ _ _ _ _ _ code s Hk E A B).
Qed.
(** Otherwise there is no file, or only a declaration, or nothing that can be read. *)
Theorem C101_keylayout_fails name kb ls : kbd_ok kb ->
  ((exists e, keylayoutFile name kb (layout_new ls) = Raise e) <-> ~ coded kb ls) /\
  (coded kb ls -> (exists l b, In l ls /\ In (b, COther) (llayout l)) -> exists e, keylayoutFile name kb (layout_new ls) = Ok (keylayoutDecl, Some e) /\ read_doc keylayoutDecl = None) /\
  (forall t, keylayoutFile name kb (layout_new ls) = Ok (t, None) ->
     ((exists x, read_doc t = Some x) <-> forallb xml_char name = true /\ forall l b s, In l ls -> In (b, CText s) (llayout l) -> forallb xml_char s = true)).
Proof.
  intros Hk. split; [|split].
  - rewrite <- (macCodes_spec kb ls Hk). unfold keylayoutFile. destruct (macCodes kb (layout_new ls)) as [cs|e]; cbn [bind].
    + split; [intros (e & X); discriminate X|intros X; destruct X; eauto].
    + split; [intros _ (cs & X); discriminate X|eauto].
  - intros C (l & b & I & J). apply (macCodes_spec kb ls Hk) in C as [cs C]. unfold keylayoutFile. rewrite C. cbn [bind].
    destruct (renderKeylayout kb (layout_new ls)) as [m|e] eqn:E; [|exists e; split; [reflexivity|vm_compute; reflexivity]].
    exfalso. destruct (proj1 (mac_success ls Hk) (ex_intro _ m E) l b COther I J) as [X _]. congruence.
  - intros t F. destruct (renderKeylayout kb (layout_new ls)) as [m|e] eqn:E.
    + rewrite (kl_file name kb ls m Hk E) in F. assert (t = keylayoutDecl ++ serialize (keylayoutTree name m)) as -> by congruence. rewrite (maps_texts kb ls m Hk E). split.
      * intros (x & X). destruct (chars (keylayoutTree name m)) eqn:Ch; [apply kl_chars_iff, Ch|]. rewrite (read_doc_bad_mac _ (kl_named name m) Ch) in X. discriminate X.
      * intros [A B]. eexists. apply read_doc_mac, kl_good. split; [exact A|]. split; [|exact B]. apply mac_maps in E as (-> & _). intros s [<-|[<-|[<-|[<-|[]]]]]; vm_compute; reflexivity.
    + exfalso. unfold keylayoutFile in F. destruct (macCodes kb (layout_new ls)); cbn [bind] in F; [|discriminate F]. rewrite E in F. discriminate F.
Qed.
(** ar-lulua, which is meant to be exported, has one. *)
Theorem C101_keylayout_refuted : exists d t, In d all_layouts /\ keylayoutFile (lit "name") ibmpc105 (layout_new (shipped_layers d)) = Ok (t, None) /\ read_doc t = None.
Proof.
  destruct C76_xml_refuted as (m & ik & ct & c & E & I & J & K & X). exists data_ar_lulua. eexists. split; [|split; [apply kl_file; [apply ibm_ok|exact E]|]].
  - do 6 right. left. reflexivity.
  - apply read_doc_bad_mac; [apply kl_named|]. destruct (chars (keylayoutTree (lit "name") m)) eqn:Ch; [|reflexivity]. apply kl_chars_iff in Ch as [_ Ch]. specialize (Ch ik ct I J).
    rewrite forallb_forall in Ch. rewrite (Ch c K) in X. discriminate X.
Qed.

(** * Anysoft keyboard *)
Lemma concat_xml (ts : list text) : (forall t, In t ts -> forallb xml_char t = true) -> forallb xml_char (List.concat ts) = true.
Proof. induction ts as [|t ts IH]; intros H; [reflexivity|]. cbn [List.concat]. rewrite forallb_app, (H t (or_introl eq_refl)), IH; [reflexivity|]. intros u I. apply H. right. exact I. Qed.
Lemma shown_xml nfc ls b ts : (forall l b s, In l ls -> In (b, CText s) (llayout l) -> forallb xml_char (nfc s) = true) -> all_shown nfc ls b ts -> forall t, In t ts -> forallb xml_char t = true.
Proof.
  intros H E t I. apply In_nth_error in I as [i I]. destruct (all_shown_nth _ E I) as (l & El & S). unfold shown in S.
  destruct (dget (llayout l) b) as [[s|]|] eqn:D; [|discriminate S|injection S as <-; reflexivity]. assert (t = nfc s) as -> by congruence. apply dget_In in D. exact (H l b s (nth_error_In _ _ El) D).
Qed.
Lemma firstn_In {A} n (l : list A) x : In x (firstn n l) -> In x l.
Proof. revert l. induction n as [|n IH]; intros [|a l] H; cbn [firstn] in H; try destruct H; [left; assumption|right; auto]. Qed.
Theorem C101_ask nfc kb ls t : kbd_ok kb -> (forall l b s, In l ls -> In (b, CText s) (llayout l) -> forallb xml_char (nfc s) = true) -> askFile nfc kb (layout_new ls) = Ok t ->
  exists x rows, read_doc t = Some x /\ ns_ok [] x = true /\ ask_read x = Some rows /\
    exists body chosen, rows = body ++ [mkAR None false true [None; None; None]] /\
      (forall i row, In (i, row) chosen <-> nth_error (removelast kb) i = Some row /\ exists b, In b (fst row ++ snd row) /\ ask_key ls b) /\
      (forall n m ir jr, n < m -> nth_error chosen n = Some ir -> nth_error chosen m = Some jr -> fst ir < fst jr) /\
      Forall2 (fun ir r => ask_row nfc ls (snd ir) (fst ir) r) chosen body.
Proof.
  intros Hk H F. unfold askFile in F. apply bind_inv in F as (rows & E & F). assert (t = lit "<?xml version='1.0' encoding='utf-8'?>" ++ nl ++ serialize (askTree rows)) as -> by congruence.
  destruct (C75_rows nfc kb ls rows Hk E) as (body & chosen & Er & Hc & Ho & Hb).
  assert (Ob : forall r, In r body -> ask_okrow r /\ forall k, In k (akeys r) -> ask_chars k).
  { intros r Ir. apply In_nth_error in Ir as [n Ir]. destruct (Forall2_nth_r _ _ _ _ _ Hb Ir) as (ir & _ & (bs & Nb & _ & _ & Fk & At & Ab & w & Ew & Hw)). split; [split|].
    - intros w' Ew'. assert (w' = w) as -> by congruence. destruct bs as [|b bs]; [congruence|]. cbn [List.length] in Hw. set (q := Z.of_nat (S (List.length bs))) in Hw. assert (1 <= q)%Z by lia. clearbody q. nia.
    - rewrite Ab. apply andb_false_r.
    - intros k Ik. apply In_nth_error in Ik as [j Ik]. destruct (Forall2_nth_r _ _ _ _ _ Fk Ik) as (b & _ & (t0 & ts & Sh & ->)). pose proof (shown_xml nfc ls (kb_name b) (t0 :: ts) H Sh) as X.
      cbn [ask_chars alabel apopup ahint]. split; [apply X; left; reflexivity|]. split; apply concat_xml; intros u I; apply X; right; [exact I|exact (firstn_In 2 ts u I)]. }
  assert (Ok : Forall ask_okrow rows).
  { rewrite Er. apply Forall_app. split; [apply Forall_forall; intros r I; apply Ob, I|]. constructor; [|constructor]. split; [intros w X; discriminate X|reflexivity]. }
  exists (xml_of (askTree rows)), rows. split; [|split; [|split; [|exists body, chosen; auto]]].
  - apply read_doc_ask, ask_good; [|exact Ok]. intros r k Ir Ik. rewrite Er in Ir. apply in_app_iff in Ir as [Ir|[<-|[]]]; [exact (proj2 (Ob r Ir) k Ik)|]. cbn in Ik. destruct Ik as [<-|[<-|[<-|[]]]]; exact I.
  - apply ask_ns, Ok.
  - apply ask_read_tree, Ok.
Qed.
Theorem C101_ask_success nfc kb ls : kbd_ok kb -> ((exists t, askFile nfc kb (layout_new ls) = Ok t) <->
  forall i row b, nth_error kb i = Some row -> S i < List.length kb -> In b (fst row ++ snd row) -> ask_key ls b -> ls <> [] /\ text_key ls (kb_name b)).
Proof.
  intros Hk. rewrite <- (C75_success nfc kb ls Hk). unfold askFile. split.
  - intros (t & E). apply bind_inv in E as (rows & E & _). eauto.
  - intros (rows & E). rewrite E. cbn [bind]. eauto.
Qed.
Theorem C101_ask_needs_chars : exists ls t, askFile (fun t => t) ibmpc105 (layout_new ls) = Ok t /\ read_doc t = None.
Proof.
  pose (ls := [mkLayer [frozenset []] [("Dl1", CText [5%N])]]). exists ls.
  destruct (askFile (fun t => t) ibmpc105 (layout_new ls)) as [t|] eqn:E; [|vm_compute in E; discriminate E]. exists t. split; [reflexivity|].
  assert (X : match askFile (fun t => t) ibmpc105 (layout_new ls) with Ok t => read_doc t | _ => Some (Xml [] [] []) end = None) by (vm_compute; reflexivity). rewrite E in X. exact X.
Qed.
(** Both files of the small layout; the letter a needs no escape, the character < does. *)
Definition sharp : list layer := [
  mkLayer [frozenset []] [("Dl1", CText [60%N]); ("El2", CText [38%N; 34%N])];
  mkLayer [frozenset ["El_shift"]; frozenset ["Er_shift"]] [("Dl1", CText [65%N])]].
Example C101_example : exists t x c, keylayoutFile (lit "s") ibmpc105 (layout_new sharp) = Ok (t, None) /\ read_doc t = Some x /\ kb_macos (key_named "Dl1") = Some c /\
  kl_types x (lit "") c = [[60%N]] /\ kl_types x (lit "anyShift caps?") c = [[65%N]] /\ escapeAttrib [38%N; 34%N] = lit "&amp;&quot;".
Proof.
  destruct (keylayoutFile (lit "s") ibmpc105 (layout_new sharp)) as [[t e]|] eqn:E; [|vm_compute in E; discriminate E].
  assert (X : match keylayoutFile (lit "s") ibmpc105 (layout_new sharp) with Ok (t, None) => match read_doc t with Some x => match kb_macos (key_named "Dl1") with Some c =>
     eqb (kl_types x (lit "") c) [[60%N]] && eqb (kl_types x (lit "anyShift caps?") c) [[65%N]] | None => false end | None => false end | _ => false end = true) by (vm_compute; reflexivity).
  rewrite E in X. destruct e; [discriminate X|]. destruct (read_doc t) as [x|] eqn:R; [|discriminate X]. destruct (kb_macos (key_named "Dl1")) as [c|] eqn:C; [|discriminate X].
  apply andb_prop in X as [X Y]. exists t, x, c. split; [reflexivity|]. split; [exact R|]. split; [reflexivity|]. split; [apply eqb_eq, X|]. split; [apply eqb_eq, Y|]. reflexivity.
Qed.

Print Assumptions C101_roundtrip.
Print Assumptions C101_unreadable.
Print Assumptions C101_needs_names.
Print Assumptions C101_keylayout.
Print Assumptions C101_keylayout_fails.
Print Assumptions C101_keylayout_refuted.
Print Assumptions C101_ask.
Print Assumptions C101_ask_success.
Print Assumptions C101_ask_needs_chars.
