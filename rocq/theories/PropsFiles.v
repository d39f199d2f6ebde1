(** C99: the texts of the files of xmodmap and Keyman (render.py:302-401). *)
From Coq Require Import QArith Ascii Permutation.
From Verif Require Import Base KeyboardModel LayoutModel LayoutProofs DataKeyboard DataLayouts ShippedProofs RenderModel KlcModel CsrcModel ExportModel ExportSpec ExportProofs PropsExport FilesModel FilesSpec FilesProofs.
Close Scope Q_scope.
Open Scope string_scope.
Open Scope list_scope.

(** * xmodmap *)
(** The file frees the modifiers, defines keys and assigns modifiers again, in this order. *)
Theorem C99_xmodmap name now kb ls xs : ~ In 10%N name -> ~ In 10%N now -> kbd_plain kb -> all_typable ls -> renderXmodmap kb (layout_new ls) = Ok xs ->
  exists t cs, xmodmapFile name now kb (layout_new ls) = (t, None) /\
    xread t = Some ([Clear (lit "Lock"); Clear (lit "Mod2"); Clear (lit "Mod3"); Clear (lit "Mod5")] ++ cs ++
                    [Add (lit "Mod3") [0xfe0c]%N; Add (lit "Mod5") [0xfe03]%N]) /\
    Forall (fun c => exists n l, c = Keycode n l) cs.
Proof.
  intros Hn Hw Hk T E. destruct (xmodmap_read name now kb ls xs Hn Hw Hk T E) as (t & cs & Et & F & R). exists t, cs. split; [exact Et|]. split; [exact R|].
  clear - F. induction F as [|x c xs cs (ks & _ & ->) _ IH]; constructor; eauto.
Qed.
(** Keys type what the layout says. *)
Theorem C99_plain name now kb ls b l t : ~ In 10%N name -> ~ In 10%N now -> kbd_ok kb -> kbd_plain kb -> all_typable ls ->
  xmodmapFile name now kb (layout_new ls) = (t, None) ->
  taken_x kb b -> ~ is_modifier ls (kb_name b) ->
  (forall y, In y (keys kb) -> is_modifier ls (kb_name y) -> kb_xorg y <> kb_xorg b) ->
  nth_error ls 0 = Some l ->
  exists cs, xread t = Some cs /\ key_types cs None (kb_xorg b) = one_char (dget (llayout l) (kb_name b)).
Proof.
  intros Hn Hw Ho Hk T E A B C D. destruct (renderXmodmap kb (layout_new ls)) as [xs|e] eqn:R; [|unfold xmodmapFile in E; rewrite R in E; discriminate E].
  destruct (xmodmap_read name now kb ls xs Hn Hw Hk T R) as (t' & cs & Et & F & Rd). rewrite E in Et. injection Et as <-. eexists. split; [exact Rd|].
  rewrite (key_types_spec xs cs None (kb_xorg b) F). exact (@C72_plain kb ls xs b l Ho R A B C D).
Qed.
Theorem C99_held name now kb ls b x i l t : ~ In 10%N name -> ~ In 10%N now -> kbd_ok kb -> kbd_plain kb -> all_typable ls ->
  xmodmapFile name now kb (layout_new ls) = (t, None) ->
  taken_x kb b -> ~ is_modifier ls (kb_name b) ->
  (forall y, In y (keys kb) -> is_modifier ls (kb_name y) -> kb_xorg y <> kb_xorg b) ->
  In x (keys kb) -> nth_error ls i = Some l -> In (frozenset [kb_name x]) (lmods l) ->
  (forall j l', i < j -> nth_error ls j = Some l' -> ~ In (frozenset [kb_name x]) (lmods l')) ->
  (forall y, In y (keys kb) -> is_modifier ls (kb_name y) -> kb_xorg y = kb_xorg x -> y = x) ->
  exists cs, xread t = Some cs /\ key_types cs (Some (kb_xorg x)) (kb_xorg b) = one_char (dget (llayout l) (kb_name b)).
Proof.
  intros Hn Hw Ho Hk T E A B C D El Im Hl Hu. destruct (renderXmodmap kb (layout_new ls)) as [xs|e] eqn:R; [|unfold xmodmapFile in E; rewrite R in E; discriminate E].
  destruct (xmodmap_read name now kb ls xs Hn Hw Hk T R) as (t' & cs & Et & F & Rd). rewrite E in Et. injection Et as <-. eexists. split; [exact Rd|].
  rewrite (key_types_spec xs cs _ (kb_xorg b) F). exact (@C72_held kb ls xs b x i l Ho R A B C D El Im Hl Hu).
Qed.
(** After an exception a file is left that takes modifiers away and gives nothing. *)
Theorem C99_xmodmap_fails name now kb ls e : ~ In 10%N name -> ~ In 10%N now ->
  renderXmodmap kb (layout_new ls) = Raise e <->
  exists t, xmodmapFile name now kb (layout_new ls) = (t, Some e) /\
    xread t = Some [Clear (lit "Lock"); Clear (lit "Mod2"); Clear (lit "Mod3"); Clear (lit "Mod5")].
Proof.
  intros Hn Hw. unfold xmodmapFile. split.
  - intros ->. eexists. split; [reflexivity|]. destruct (head_read name now) as (hs & Hh & Ch). rewrite head_lines, (xread_ltext _ hs), Ch; [reflexivity| |exact Hh].
    apply head_free; apply free_nl; assumption.
  - intros (t & E & _). destruct (renderXmodmap kb (layout_new ls)); congruence.
Qed.
(** All shipped layouts have only characters X11 knows; the keyboard's names are fine. *)
Lemma ibm_plain : kbd_plain ibmpc105.
Proof.
  assert (H : forallb (fun b => forallb (fun c => negb (c =? 10)%N) (lit (kb_name b))) (keys ibmpc105) = true) by (vm_compute; reflexivity).
  intros b I J. rewrite forallb_forall in H. specialize (H b I). rewrite forallb_forall in H. specialize (H _ J). discriminate H.
Qed.
Definition typableb (c : N) : bool := ((c =? 8) || (c =? 9) || (c =? 10))%N || (negb (control c) && (c <? 0x110000)%N).
Lemma typableb_ok c : typableb c = true -> typable c.
Proof.
  unfold typableb, typable. intros H. apply orb_prop in H as [H|H]; [left|right; apply andb_prop in H as [A B]; destruct (control c); [discriminate A|lia]].
  repeat (apply orb_prop in H as [H|H]); lia.
Qed.
Theorem C99_shipped_typable d : In d all_layouts -> all_typable (shipped_layers d).
Proof.
  intros Hd. assert (H : forallb (fun d => forallb (fun l => forallb (fun bc => match snd bc with CText [x] => typableb x | _ => true end) (llayout l)) (shipped_layers d)) all_layouts = true) by (vm_compute; reflexivity).
  rewrite forallb_forall in H. specialize (H d Hd). intros l b x Il I. rewrite forallb_forall in H. specialize (H l Il). rewrite forallb_forall in H.
  specialize (H _ I). apply typableb_ok. exact H.
Qed.
(** A line break in the name makes the file unreadable; so does a character without keysym. *)
Theorem C99_needs_name : exists name xs t, renderXmodmap ibmpc105 (layout_new small) = Ok xs /\ xmodmapFile name [] ibmpc105 (layout_new small) = (t, None) /\ xread t = None.
Proof.
  pose (t := xmodmapFile [10; 120]%N [] ibmpc105 (layout_new small)). destruct (renderXmodmap ibmpc105 (layout_new small)) as [xs|] eqn:E; [|vm_compute in E; discriminate E].
  exists [10; 120]%N, xs, (fst t). split; [reflexivity|]. split; vm_compute; reflexivity.
Qed.
Theorem C99_needs_typable : exists ls xs t, all_written ls /\ renderXmodmap ibmpc105 (layout_new ls) = Ok xs /\ xmodmapFile [] [] ibmpc105 (layout_new ls) = (t, None) /\ xread t = None.
Proof.
  pose (ls := [mkLayer [frozenset []] [("Dl1", CText [27%N])]]). pose (t := xmodmapFile [] [] ibmpc105 (layout_new ls)).
  destruct (renderXmodmap ibmpc105 (layout_new ls)) as [xs|] eqn:E; [|vm_compute in E; discriminate E].
  exists ls, xs, (fst t). split; [|split; [exact E|split; vm_compute; reflexivity]].
  intros l b x [<-|[]] [I|[]]. injection I as _ <-. split; [discriminate|]. constructor; [lia|constructor].
Qed.
Example C99_xmodmap_example : match xmodmapFile (lit "small") (lit "now") ibmpc105 (layout_new small) with
  | (t, None) => match xread t with
                 | Some cs => map (fun h => key_types cs h (kb_xorg (key_named "Dl1"))) [None; Some (kb_xorg (key_named "El_shift"))] = [Some 97%N; Some 65%N]
                 | None => False end
  | _ => False end.
Proof. vm_compute. reflexivity. Qed.

(** * Keyman *)
(** The file names the layout and has a rule for every text of every layer and modifier, in this order.  An exception cuts the rules off before the first cell that is no text. *)
Theorem C99_keyman kb ord name now ls t e : kbd_ok kb -> (forall m, Permutation (ord m) (elems m)) -> (forall k, In k (keys kb) -> code_ok (kb_keyman k)) ->
  ~ In 10%N name -> ~ In 34%N name -> ~ In 92%N name -> ~ In 10%N now -> ~ In 92%N now ->
  mods_on kb ls -> cells_on kb ls -> all_written ls -> keymanFile name now kb ord (layout_new ls) = (t, e) ->
  exists k ss,
    kread t = Some ([Store (lit "version") (lit "9.0"); Store (lit "name") name; Store (lit "mnemoniclayout") (lit "0"); Store (lit "targets") (lit "any"); Begin; Group] ++ ss) /\
    Forall2 (rule_does kb) (firstn k (typed ls)) ss /\
    ((e = None /\ k = List.length (typed ls)) \/ (e = Some TypeError /\ exists m b, nth_error (typed ls) k = Some (m, b, COther))).
Proof. intros Hk Ho Hc N1 N2 N3 W1 W2 Hm Hcl T E. exact (keyman_read kb ord Hk Ho Hc name now ls t e N1 N2 N3 W1 W2 Hm Hcl T E). Qed.
Lemma ibm_codes k : In k (keys ibmpc105) -> code_ok (kb_keyman k).
Proof.
  assert (H : forallb (fun k => negb (String.eqb (kb_keyman k) "") && forallb (fun c => negb (mem c [9; 10; 32; 93]%N)) (lit (kb_keyman k))) (keys ibmpc105) = true) by (vm_compute; reflexivity).
  rewrite forallb_forall in H. intros I. specialize (H k I). apply andb_prop in H as [A B]. split.
  - intros E. rewrite E in A. discriminate A.
  - intros c J K. rewrite forallb_forall in B. specialize (B c J). apply mem_In in K. rewrite K in B. discriminate B.
Qed.
(** Every shipped layout's file can be read. *)
Theorem C99_shipped d ord name now : In d all_layouts -> (forall m, Permutation (ord m) (elems m)) ->
  ~ In 10%N name -> ~ In 34%N name -> ~ In 92%N name -> ~ In 10%N now -> ~ In 92%N now ->
  exists t ss, keymanFile name now ibmpc105 ord (layout_new (shipped_layers d)) = (t, None) /\
    kread t = Some ([Store (lit "version") (lit "9.0"); Store (lit "name") name; Store (lit "mnemoniclayout") (lit "0"); Store (lit "targets") (lit "any"); Begin; Group] ++ ss) /\
    Forall2 (rule_does ibmpc105) (typed (shipped_layers d)) ss.
Proof.
  intros Hd Ho N1 N2 N3 W1 W2. pose (names := map kb_name (keys ibmpc105)).
  assert (B : forallb (fun d => forallb (fun l => forallb (fun m => forallb (fun b => mem b names) (elems m)) (lmods l) &&
     forallb (fun bc => mem (fst bc) names && match snd bc with CText ((_ :: _) as t) => forallb (fun c => c <? 0x110000)%N t | _ => false end) (llayout l)) (shipped_layers d)) all_layouts = true) by (vm_compute; reflexivity).
  rewrite forallb_forall in B. specialize (B d Hd). rewrite forallb_forall in B.
  assert (HM : mods_on ibmpc105 (shipped_layers d)).
  { intros l m b Il Im Ib. specialize (B l Il). apply andb_prop in B as [B _]. rewrite forallb_forall in B. specialize (B m Im). rewrite forallb_forall in B. apply mem_In, (B b Ib). }
  assert (HB : forall l b c, In l (shipped_layers d) -> In (b, c) (llayout l) -> In b names /\ exists x t, c = CText (x :: t) /\ Forall (fun c => (c < 0x110000)%N) (x :: t)).
  { intros l b c Il Ib. specialize (B l Il). apply andb_prop in B as [_ B]. rewrite forallb_forall in B. specialize (B _ Ib). apply andb_prop in B as [B1 B2]. cbn [fst snd] in *.
    split; [apply mem_In, B1|]. destruct c as [[|x t]|]; [discriminate B2| |discriminate B2]. exists x, t. split; [reflexivity|]. apply Forall_forall. rewrite forallb_forall in B2. intros y Iy. apply N.ltb_lt, B2, Iy. }
  clear B. destruct (keymanFile name now ibmpc105 ord (layout_new (shipped_layers d))) as [t e] eqn:E.
  destruct (C99_keyman ibmpc105 ord name now (shipped_layers d) t e ibm_ok Ho ibm_codes N1 N2 N3 W1 W2 HM) as (k & ss & R & F & H).
  - intros l b c Il Ib. exact (proj1 (HB l b c Il Ib)).
  - intros l b u Il Ib. destruct (HB l b _ Il Ib) as (_ & x & v & Ec & Fc). injection Ec as ->. split; [discriminate|exact Fc].
  - exact E.
  - destruct H as [[-> ->]|(_ & m & b & N)].
    + rewrite firstn_all in F. exists t, ss. auto.
    + exfalso. apply nth_error_In in N. unfold typed in N. apply in_flat_map in N as (l & Il & N). apply in_flat_map in N as (m' & _ & N).
      apply in_map_iff in N as ([b' c'] & Eq & N). cbn [fst snd] in Eq. destruct (HB l b' c' Il N) as (_ & x & v & -> & _). congruence.
Qed.
(** A key without characters is no rule; a quote in the name ends it, a backslash continues the line. *)
Theorem C99_needs_written : exists ls t, cells_on ibmpc105 ls /\ mods_on ibmpc105 ls /\ all_text ls /\ keymanFile [] [] ibmpc105 elems (layout_new ls) = (t, None) /\ kread t = None.
Proof.
  exists [mkLayer [frozenset []] [("Dl1", CText [])]]. eexists. split; [|split; [|split; [|split; [vm_compute; reflexivity|vm_compute; reflexivity]]]].
  - intros l b c [<-|[]] [I|[]]. injection I as <- _. apply mem_In. vm_compute. reflexivity.
  - intros l m b [<-|[]] [<-|[]] [].
  - intros l b c [<-|[]] _ [I|[]]. injection I as _ <-. discriminate.
Qed.
Theorem C99_needs_quote : exists name t, keymanFile name [] ibmpc105 elems (layout_new small) = (t, None) /\ ~ In 10%N name /\ ~ In 92%N name /\ kread t = None.
Proof.
  exists (lit "a" ++ quote ++ lit "b"). eexists. split; [vm_compute; reflexivity|].
  split; [intros H; vm_compute in H; decompose [or] H; try discriminate; contradiction|].
  split; [intros H; vm_compute in H; decompose [or] H; try discriminate; contradiction|]. vm_compute. reflexivity.
Qed.
Example C99_keyman_example : match keymanFile (lit "small") (lit "now") ibmpc105 elems (layout_new small) with
  | (t, None) => kread t = Some (kstores (lit "small") ++ [Rule [lit "K_A"] [97]%N; Rule [lit "K_Y"] [98]%N; Rule [lit "SHIFT"; lit "K_A"] [65]%N; Rule [lit "SHIFT"; lit "K_Y"] [66]%N;
      Rule [lit "SHIFT"; lit "K_A"] [65]%N; Rule [lit "SHIFT"; lit "K_Y"] [66]%N])
  | _ => False end.
Proof. vm_compute. reflexivity. Qed.
Print Assumptions C99_xmodmap.
Print Assumptions C99_plain.
Print Assumptions C99_held.
Print Assumptions C99_xmodmap_fails.
Print Assumptions C99_shipped_typable.
Print Assumptions C99_needs_name.
Print Assumptions C99_needs_typable.
Print Assumptions C99_keyman.
Print Assumptions C99_shipped.
Print Assumptions C99_needs_written.
Print Assumptions C99_needs_quote.
