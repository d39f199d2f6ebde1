(** Lines of the C source and what the reader makes of them. *)
From Coq Require Import Ascii.
From Verif Require Import Base LayoutModel DataWinkbd DataCsrc WinkbdModel KlcModel CsrcModel CsrcSpec CsrcLex.
Open Scope string_scope.
Open Scope list_scope.

Definition pre (x : list tok) (p : list tok * lstate) : list tok * lstate := (x ++ fst p, snd p).
(** Characters that end a name or number *)
Definition stopper (c : N) : bool := negb (name_char c) && negb (mem c [34; 40; 46]%N).
Lemma stopper_inv c : stopper c = true -> name_char c = false /\ (c =? 34)%N = false /\ (c =? 40)%N = false /\ (c =? 46)%N = false.
Proof.
  unfold stopper. rewrite andb_true_iff, !negb_true_iff. intros [A C].
  assert (D : forall d, In d [34; 40; 46]%N -> (c =? d)%N = false).
  { intros d Hd. destruct (c =? d)%N eqn:E; [|reflexivity]. apply N.eqb_eq in E. subst d. apply mem_In in Hd. congruence. }
  repeat split; [exact A| | |]; apply D; cbn; auto.
Qed.
Lemma lex_name_stop t c r : namedb t = true -> stopper c = true -> lex S0 (t ++ c :: r) = pre [TId (ascii_text t)] (lex S0 (c :: r)).
Proof.
  intros Ht Hc. destruct (stopper_inv c Hc) as (A & C & D & _). rewrite lex_app, (lex_name t Ht). cbn [fst snd app lex lstep]. rewrite A, C, D. cbn [andb].
  unfold also. rewrite name_tok_rev. destruct (start c) as [x s]. cbn [fst snd]. destruct (lex s r). reflexivity.
Qed.
Lemma lex_num_stop t c r : numb t = true -> stopper c = true -> lex S0 (t ++ c :: r) = pre [num_tok (rev t)] (lex S0 (c :: r)).
Proof.
  intros Ht Hc. destruct (stopper_inv c Hc) as (A & _ & _ & D). rewrite lex_app, (lex_num t Ht). cbn [fst snd app lex lstep]. rewrite A, D. cbn [orb].
  unfold also. destruct (start c) as [x s]. cbn [fst snd]. destruct (lex s r). reflexivity.
Qed.
Lemma lex_pre a x r : lex S0 a = (x, S0) -> lex S0 (a ++ r) = pre x (lex S0 r).
Proof. intros H. rewrite lex_app, H. reflexivity. Qed.
Lemma pre_pre x y p : pre x (pre y p) = pre (x ++ y) p.
Proof. unfold pre. cbn [fst snd]. rewrite app_assoc. reflexivity. Qed.
Lemma hex_stop up w n c r : stopper c = true -> lex S0 (lit "0x" ++ padded w (num 16 up n) ++ c :: r) = pre [TNum n] (lex S0 (c :: r)).
Proof.
  intros Hc. pose proof (lex_num_stop _ c r (hex_numb up w n false) Hc) as H. rewrite num_tok_hex in H. rewrite <- H. rewrite app_nil_r, <- app_assoc. reflexivity.
Qed.
Lemma hexu_stop up w n c r : stopper c = true -> lex S0 (lit "0x" ++ padded w (num 16 up n) ++ lit "u" ++ c :: r) = pre [TNum n] (lex S0 (c :: r)).
Proof.
  intros Hc. pose proof (lex_num_stop _ c r (hex_numb up w n true) Hc) as H. rewrite num_tok_hex in H. rewrite <- H. rewrite <- !app_assoc. reflexivity.
Qed.
Lemma dec_stop n c r : stopper c = true -> lex S0 (dec n ++ c :: r) = pre [TNum n] (lex S0 (c :: r)).
Proof. intros Hc. pose proof (lex_num_stop _ c r (dec_numb n) Hc) as H. rewrite num_tok_dec in H. exact H. Qed.
Lemma lit_stop s c r : namedb (lit s) = true -> stopper c = true -> lex S0 (lit s ++ c :: r) = pre [TId s] (lex S0 (c :: r)).
Proof. intros Hs Hc. rewrite (lex_name_stop _ c r Hs Hc), ascii_text_lit. reflexivity. Qed.

(** Names joined by [|] *)
Definition idents (l : list string) : Prop := Forall (fun s => namedb (lit s) = true) l.
Fixpoint ortoks (l : list string) : list tok :=
  match l with [] => [] | [s] => [TId s] | s :: l' => TId s :: TP "|" :: ortoks l' end.
Lemma or_stop l c r : l <> [] -> idents l -> stopper c = true -> lex S0 (orText l ++ c :: r) = pre (ortoks l) (lex S0 (c :: r)).
Proof.
  intros Hl Hi Hc. induction Hi as [|s l Hs Hi IH]; [contradiction|]. unfold orText in *. cbn [map join ortoks]. destruct l as [|s' l].
  - cbn [map]. apply lit_stop; assumption.
  - cbn [map] in *. rewrite <- !app_assoc. change (lit " | ") with [32; 124; 32]%N in *. cbn [app]. rewrite lit_stop by (assumption || reflexivity).
    match goal with |- context [lex S0 (32%N :: 124%N :: 32%N :: ?x)] => change (32%N :: 124%N :: 32%N :: x) with ([32; 124; 32]%N ++ x) end.
    rewrite (lex_pre [32; 124; 32]%N [TP "|"]) by reflexivity. rewrite IH by discriminate. rewrite !pre_pre. reflexivity.
Qed.
Lemma or_harmless l : Forall (fun s => forallb name_char (lit s) = true) l -> forallb harmless (orText l) = true.
Proof.
  intros Hi. unfold orText. induction Hi as [|s l Hs Hi IH]; [reflexivity|]. cbn [map join]. destruct l as [|s' l]; [apply names_harmless, Hs|].
  cbn [map] in *. rewrite !forallb_app, IH. rewrite (names_harmless _ Hs). reflexivity.
Qed.
Lemma comment_pre t r : forallb harmless t = true -> lex S0 (lit "/* " ++ t ++ lit " */" ++ r) = lex S0 r.
Proof.
  intros H. assert (E : lex S0 (lit "/* " ++ t ++ lit " */") = ([], S0)).
  { apply (lex_trans S0 SCom S0 _ _ [] []); [reflexivity|]. apply (lex_trans SCom SCom S0 _ _ [] []); [apply lex_comment, H|reflexivity]. }
  replace (lit "/* " ++ t ++ lit " */" ++ r) with ((lit "/* " ++ t ++ lit " */") ++ r) by (rewrite <- !app_assoc; reflexivity).
  rewrite (lex_pre _ [] r E). unfold pre. destruct (lex S0 r). reflexivity.
Qed.

(** * Lines *)
Definition outs := list (tok + list tok).
Definition clean (t : tok) : bool := match t with TNl | TBad => false | TP "#" => false | _ => true end.
(** Complete lines that give [o] *)
Definition ltext (t : text) (o : outs) : Prop := exists us, lex S0 t = (us, S0) /\ cpp PBegin us = (o, PBegin).
Lemma cpp_app s a b : cpp s (a ++ b) = (fst (cpp s a) ++ fst (cpp (snd (cpp s a)) b), snd (cpp (snd (cpp s a)) b)).
Proof.
  revert s. induction a as [|c a IH]; intros s; cbn [app cpp]; [cbn [fst snd app]; destruct (cpp s b); reflexivity|].
  destruct (pstep s c) as [ts s']. rewrite IH. destruct (cpp s' a) as [ts' s'']. cbn [fst snd]. rewrite app_assoc. reflexivity.
Qed.
Lemma ltext_nil : ltext [] [].
Proof. exists []. split; reflexivity. Qed.
Lemma ltext_app a b x y : ltext a x -> ltext b y -> ltext (a ++ b) (x ++ y).
Proof.
  intros (u & A1 & A2) (v & B1 & B2). exists (u ++ v). rewrite lex_app, A1. cbn [fst snd]. rewrite B1. split; [reflexivity|].
  rewrite cpp_app, A2. cbn [fst snd]. rewrite B2. reflexivity.
Qed.
Lemma ltext_concat ts os : Forall2 ltext ts os -> ltext (concat ts) (concat os).
Proof. induction 1; [apply ltext_nil|]. cbn [concat]. apply ltext_app; assumption. Qed.
Lemma cpp_mid ts : forallb clean ts = true -> cpp PMid (ts ++ [TNl]) = (map inl ts, PBegin).
Proof.
  induction ts as [|t ts IH]; intros H; [reflexivity|]. cbn [forallb] in H. apply andb_true_iff in H as [Ht Hs]. cbn [app cpp map].
  assert (E : pstep PMid t = ([inl t], PMid)) by (destruct t; try reflexivity; discriminate). rewrite E, IH by exact Hs. reflexivity.
Qed.
Lemma cpp_line ts : forallb clean ts = true -> cpp PBegin (ts ++ [TNl]) = (map inl ts, PBegin).
Proof.
  destruct ts as [|t ts]; intros H; [reflexivity|]. cbn [forallb] in H. apply andb_true_iff in H as [Ht Hs]. cbn [app cpp map].
  assert (E : pstep PBegin t = ([inl t], PMid)).
  { destruct t as [| | |c| | |]; try reflexivity; try discriminate. destruct c as [[] [] [] [] [] [] [] []]; try reflexivity. discriminate. }
  rewrite E, cpp_mid by exact Hs. reflexivity.
Qed.
Lemma ltext_line t ts : forallb clean ts = true -> lex S0 (t ++ nl) = (ts ++ [TNl], S0) -> ltext (t ++ nl) (map inl ts).
Proof. intros H E. exists (ts ++ [TNl]). split; [exact E|apply cpp_line, H]. Qed.
Lemma join_nl l : l <> [] -> join nl l ++ nl = concat (map (fun x => x ++ nl) l).
Proof.
  induction l as [|x l IH]; intros H; [contradiction|]. cbn [join map concat]. destruct l as [|y l]; [cbn; rewrite app_nil_r; reflexivity|].
  rewrite <- !app_assoc. rewrite IH by discriminate. reflexivity.
Qed.
(** A chunk of lines *)
Lemma ltext_join l os : l <> [] -> Forall2 (fun t o => ltext (t ++ nl) o) l os -> ltext (join nl l ++ nl) (concat os).
Proof.
  intros Hl H. rewrite join_nl by exact Hl. apply ltext_concat. clear Hl. induction H; cbn [map]; constructor; assumption.
Qed.
(** A computed check for fixed text *)
Definition ltextb (t : text) : option outs := match lex S0 t with (us, S0) => match cpp PBegin us with (o, PBegin) => Some o | _ => None end | _ => None end.
Lemma ltextb_ok t o : ltextb t = Some o -> ltext t o.
Proof.
  unfold ltextb, ltext. destruct (lex S0 t) as [us s]. destruct s; try discriminate. destruct (cpp PBegin us) as [o' p] eqn:E. destruct p; try discriminate.
  intros H. exists us. split; [reflexivity|]. inversion H. subst o'. exact E.
Qed.
Definition fixed (s : string) : text := lit s.
Ltac by_compute := apply ltextb_ok; vm_compute; reflexivity.

(** * Macros *)
Definition define_of (nv : string * N) : tok + list tok := inr [TId "define"; TId (fst nv); TP "("; TNum (snd nv); TP ")"].
Lemma define_line nv : namedb (lit (fst nv)) = true -> ltext (defineText nv ++ nl) [define_of nv].
Proof.
  intros H. unfold defineText. exists [TP "#"; TId "define"; TId (fst nv); TP "("; TNum (snd nv); TP ")"; TNl]. split; [|reflexivity].
  rewrite <- !app_assoc. rewrite (lex_pre (lit "#define ") [TP "#"; TId "define"]) by reflexivity.
  change (lit " (0x") with (32%N :: 40%N :: lit "0x"). cbn [app]. rewrite lit_stop by (assumption || reflexivity).
  match goal with |- context [lex S0 (32%N :: 40%N :: ?x)] => change (32%N :: 40%N :: x) with ([32; 40]%N ++ x) end.
  rewrite (lex_pre [32; 40]%N [TP "("]) by reflexivity. change (lit "u)" ++ nl) with (lit "u" ++ 41%N :: nl). unfold hexu. rewrite hexu_stop by reflexivity.
  rewrite !pre_pre. reflexivity.
Qed.
Lemma defines_text cls l : forallb harmless (lit cls) = true -> Forall (fun nv => namedb (lit (fst nv)) = true) l ->
  ltext (defines cls l ++ nl) (map define_of l).
Proof.
  intros Hc Hl. unfold defines. replace (map define_of l) with (concat ([] :: map (fun nv => [define_of nv]) l ++ [[]])).
  2:{ cbn [concat app]. rewrite concat_app. cbn [concat]. rewrite !app_nil_r. induction l as [|a l IH]; [reflexivity|]. cbn [map concat app]. inversion Hl; subst. rewrite IH by assumption. reflexivity. }
  apply ltext_join; [discriminate|]. constructor.
  - apply (ltext_line _ []); [reflexivity|]. rewrite <- !app_assoc, comment_pre by exact Hc. reflexivity.
  - apply Forall2_app; [|constructor; [by_compute|constructor]]. induction Hl; cbn [map]; constructor; [apply define_line; assumption|assumption].
Qed.

(** * Rows *)
Lemma aus_line i names : names <> [] -> idents names ->
  ltext ((tab ++ lit " /* " ++ hexu 2 i ++ lit " */ " ++ orText names ++ lit ",") ++ nl) (map inl (ortoks names ++ [TP ","])).
Proof.
  intros Hn Hi. apply ltext_line.
  - rewrite forallb_app. cbn. rewrite andb_true_r. clear. induction names as [|s [|s' l] IH]; [reflexivity|reflexivity|]. cbn [ortoks forallb clean andb]. exact IH.
  - rewrite <- !app_assoc. change (tab ++ lit " /* " ++ hexu 2 i ++ lit " */ " ++ orText names ++ lit "," ++ nl)
      with ([9; 32]%N ++ lit "/* " ++ hexu 2 i ++ lit " */" ++ 32%N :: orText names ++ 44%N :: nl).
    rewrite (lex_pre [9; 32]%N []) by reflexivity. rewrite comment_pre by (apply names_harmless, hexu_names).
    change (32%N :: orText names ++ 44%N :: nl) with ([32]%N ++ orText names ++ 44%N :: nl). rewrite (lex_pre [32]%N []) by reflexivity.
    rewrite or_stop by (assumption || reflexivity). rewrite !pre_pre. unfold pre. cbn [fst snd app]. rewrite <- ?app_assoc. reflexivity.
Qed.
Definition vsc_toks (r : N * list string) : list tok := TP "{" :: TNum (fst r) :: TP "," :: ortoks (snd r) ++ [TP "}"; TP ","].
Lemma ortoks_clean l : forallb clean (ortoks l) = true.
Proof. induction l as [|s [|s' l] IH]; [reflexivity|reflexivity|]. cbn [ortoks forallb clean andb]. exact IH. Qed.
Lemma vsc_line r : snd r <> [] -> idents (snd r) ->
  ltext ((tab ++ lit "{ 0x" ++ hexl 0 (fst r) ++ lit ", " ++ orText (snd r) ++ lit " },") ++ nl) (map inl (vsc_toks r)).
Proof.
  intros Hn Hi. apply ltext_line.
  - unfold vsc_toks. cbn [forallb clean andb]. rewrite forallb_app, ortoks_clean. reflexivity.
  - rewrite <- !app_assoc. change (tab ++ lit "{ 0x" ++ hexl 0 (fst r) ++ lit ", " ++ orText (snd r) ++ lit " }," ++ nl)
      with ([9; 123; 32]%N ++ lit "0x" ++ padded 0 (num 16 false (fst r)) ++ 44%N :: [32]%N ++ orText (snd r) ++ 32%N :: [125; 44; 10]%N).
    rewrite (lex_pre [9; 123; 32]%N [TP "{"]) by reflexivity. rewrite hex_stop by reflexivity.
    change (44%N :: [32]%N ++ orText (snd r) ++ 32%N :: [125; 44; 10]%N) with ([44; 32]%N ++ orText (snd r) ++ 32%N :: [125; 44; 10]%N).
    rewrite (lex_pre [44; 32]%N [TP ","]) by reflexivity. rewrite or_stop by (assumption || reflexivity). rewrite !pre_pre.
    unfold pre, vsc_toks. cbn [fst snd app]. rewrite <- ?app_assoc. reflexivity.
Qed.
Lemma mod_line ord i : ltext (modText ord i ++ nl) (map inl [TNum (modNumber i); TP ","]).
Proof.
  apply ltext_line; [reflexivity|]. unfold modText. cbv zeta. set (c := if (modNumber i =? disabled)%N then _ else _).
  assert (Hc : forallb harmless c = true).
  { unfold c. destruct (modNumber i =? disabled)%N; [reflexivity|]. apply or_harmless. unfold enumOr. rewrite Forall_forall. intros s Hs.
    apply in_map_iff in Hs as (k & <- & Hk). apply in_map_iff in Hk as (v & <- & _). unfold cdefName. rewrite lit_app, forallb_app. cbn [forallb]. rewrite andb_true_iff. split; [reflexivity|].
    assert (F : forallb (fun nv => forallb name_char (lit (fst nv))) vkval = true) by (vm_compute; reflexivity).
    clear - F. induction vkval as [|[n w] l IH]; [reflexivity|]. cbn [canonical forallb fst] in *. apply andb_true_iff in F as [F1 F2]. destruct (v =? w)%N; [exact F1|apply IH, F2]. }
  clearbody c. rewrite <- !app_assoc. change (tab ++ tab ++ lit "0x" ++ hexl 0 (modNumber i) ++ lit ", /* " ++ c ++ lit " */" ++ nl)
    with ([9; 9]%N ++ lit "0x" ++ padded 0 (num 16 false (modNumber i)) ++ 44%N :: [32]%N ++ lit "/* " ++ c ++ lit " */" ++ nl).
  rewrite (lex_pre [9; 9]%N []) by reflexivity. rewrite hex_stop by reflexivity.
  change (44%N :: [32]%N ++ lit "/* " ++ c ++ lit " */" ++ nl) with ([44; 32]%N ++ lit "/* " ++ c ++ lit " */" ++ nl).
  rewrite (lex_pre [44; 32]%N [TP ","]) by reflexivity. rewrite comment_pre by exact Hc. rewrite !pre_pre. reflexivity.
Qed.
(** Names of macros *)
Lemma cdefName_ident k : namedb (lit (cdefName k)) = true.
Proof.
  assert (G : forall cls v, forallb (fun nv => forallb name_char (lit (fst nv))) cls = true -> forallb name_char (lit (canonical cls v)) = true).
  { intros cls v F. induction cls as [|[n w] l IH]; [reflexivity|]. cbn [canonical forallb fst] in *. apply andb_true_iff in F as [F1 F2]. destruct (v =? w)%N; [exact F1|apply IH, F2]. }
  destruct k as [v|v|v]; unfold cdefName; rewrite lit_app.
  - change (lit "VIRTUALKEY_") with (86%N :: lit "IRTUALKEY_"). cbn [app namedb]. rewrite forallb_app, G by (vm_compute; reflexivity). reflexivity.
  - change (lit "VIRTUALKEYFLAG_") with (86%N :: lit "IRTUALKEYFLAG_"). cbn [app namedb]. rewrite forallb_app, G by (vm_compute; reflexivity). reflexivity.
  - change (lit "WCHAR_") with (87%N :: lit "CHAR_"). cbn [app namedb]. rewrite forallb_app, G by (vm_compute; reflexivity). reflexivity.
Qed.
Lemma enumOr_idents ks : idents (enumOr ks).
Proof. unfold idents, enumOr. rewrite Forall_forall. intros s Hs. apply in_map_iff in Hs as (k & <- & _). apply cdefName_ident. Qed.

(** * Rows of characters *)
Definition ctok (e : cexpr) : tok := match e with CName s => TId s | CNum n => TNum n end.
Lemma toRepr_text printable s e : toRepr s = Ok e -> exists t, toReprText printable s = Ok t /\
  forall c r, stopper c = true -> lex S0 (t ++ c :: r) = pre [ctok e] (lex S0 (c :: r)).
Proof.
  destruct s as [[[|x [|y t]]|]|]; cbn [toRepr toReprText]; intros E; try discriminate.
  - injection E as <-. eexists. split; [reflexivity|]. intros c r Hc. cbn [ctok]. rewrite <- !app_assoc.
    change (lit "0x" ++ hexu 4 x ++ lit "u /*" ++ repr1 printable x ++ lit "*/" ++ c :: r)
      with (lit "0x" ++ padded 4 (num 16 true x) ++ lit "u" ++ 32%N :: lit "/*" ++ repr1 printable x ++ lit "*/" ++ c :: r).
    rewrite hexu_stop by reflexivity.
    replace (32%N :: lit "/*" ++ repr1 printable x ++ lit "*/" ++ c :: r) with ([32%N] ++ (lit "/*" ++ repr1 printable x ++ lit "*/") ++ c :: r) by (rewrite <- !app_assoc; reflexivity).
    rewrite (lex_pre [32%N] []) by reflexivity. rewrite (lex_pre _ [] _ (lex_repr printable x)). rewrite !pre_pre. reflexivity.
  - injection E as <-. eexists. split; [reflexivity|]. intros c r Hc. cbn [ctok]. apply lit_stop; [reflexivity|exact Hc].
Qed.
(** Expressions joined by commas *)
Fixpoint ctoks (l : list cexpr) : list tok :=
  match l with [] => [] | [e] => [ctok e] | e :: l' => ctok e :: TP "," :: ctoks l' end.
Lemma chars_text printable cs es : mapM toRepr cs = Ok es -> exists ts, mapM (toReprText printable) cs = Ok ts /\
  forall r, lex S0 (join (lit ", ") ts ++ 125%N :: r) = pre (ctoks es) (lex S0 (125%N :: r)).
Proof.
  intros E. apply mapM_Ok_inv in E. induction E as [|s e cs es Es E IH].
  - exists []. split; [reflexivity|]. intros r. cbn [join app ctoks]. unfold pre. destruct (lex S0 (125%N :: r)); reflexivity.
  - destruct (toRepr_text printable s e Es) as (t & Et & Ht). destruct IH as (ts & Ets & Hts).
    exists (t :: ts). cbn [mapM]. rewrite Et. cbn [bind]. rewrite Ets. split; [reflexivity|]. intros r. cbn [join ctoks].
    pose proof (Forall2_length _ _ _ E) as L1. pose proof (Forall2_length _ _ _ (mapM_Ok_inv _ _ _ Ets)) as L2.
    destruct ts as [|t' ts]; destruct es as [|e' es]; cbn [List.length] in L1, L2; try congruence; [apply Ht; reflexivity|].
    rewrite <- !app_assoc. change (lit ", " ++ join (lit ", ") (t' :: ts) ++ 125%N :: r) with (44%N :: [32%N] ++ join (lit ", ") (t' :: ts) ++ 125%N :: r).
    rewrite Ht by reflexivity. change (44%N :: [32%N] ++ join (lit ", ") (t' :: ts) ++ 125%N :: r) with ([44; 32]%N ++ join (lit ", ") (t' :: ts) ++ 125%N :: r).
    rewrite (lex_pre [44; 32]%N [TP ","]) by reflexivity. rewrite Hts, !pre_pre. reflexivity.
Qed.
Definition wrow_toks (w : wrow) : list tok :=
  TP "{" :: ctok (w_vk w) :: TP "," :: TNum (w_flags w) :: TP "," :: TP "{" :: ctoks (w_chars w) ++ [TP "}"; TP "}"; TP ","].
Lemma ctoks_clean l : forallb clean (ctoks l) = true.
Proof. induction l as [|s [|s' l] IH]; [reflexivity|destruct s; reflexivity|].
  change (ctoks (s :: s' :: l)) with (ctok s :: TP "," :: ctoks (s' :: l)). cbn [forallb]. rewrite IH. destruct s; reflexivity. Qed.
Lemma wrow_line printable v fl cs es : mapM toRepr cs = Ok es -> exists t, rowText printable (v, fl, cs) = Ok t /\
  ltext (t ++ nl) (map inl (wrow_toks (mkW (CName (cdefName (KVk v))) fl es))).
Proof.
  intros E. destruct (chars_text printable cs es E) as (ts & Ets & Hts). cbn [rowText]. rewrite Ets. cbn [bind]. eexists. split; [reflexivity|].
  apply ltext_line.
  - unfold wrow_toks. cbn [forallb ctok clean w_vk w_flags w_chars andb]. rewrite forallb_app, ctoks_clean. reflexivity.
  - rewrite <- !app_assoc. change (tab ++ lit "{" ++ lit (cdefName (KVk v)) ++ lit ", " ++ dec fl ++ lit ", {" ++ join (lit ", ") ts ++ lit "}}," ++ nl)
      with ([9; 123]%N ++ lit (cdefName (KVk v)) ++ 44%N :: [32]%N ++ dec fl ++ 44%N :: [32; 123]%N ++ join (lit ", ") ts ++ 125%N :: [125; 44; 10]%N).
    rewrite (lex_pre [9; 123]%N [TP "{"]) by reflexivity. rewrite lit_stop by (reflexivity || apply cdefName_ident).
    match goal with |- context [44%N :: [32%N] ++ ?x] => change (44%N :: [32%N] ++ x) with ([44; 32]%N ++ x) end.
    rewrite (lex_pre [44; 32]%N [TP ","]) by reflexivity. rewrite dec_stop by reflexivity.
    match goal with |- context [44%N :: [32%N; 123%N] ++ ?x] => change (44%N :: [32%N; 123%N] ++ x) with ([44; 32; 123]%N ++ x) end.
    rewrite (lex_pre [44; 32; 123]%N [TP ","; TP "{"]) by reflexivity. rewrite Hts, !pre_pre. unfold pre, wrow_toks.
    cbn [fst snd app w_vk w_flags w_chars ctok]. rewrite <- ?app_assoc. reflexivity.
Qed.
(** The last row: every zero has a comma *)
Definition zero_toks (n : nat) : list tok :=
  TP "{" :: TNum 0 :: TP "," :: TNum 0 :: TP "," :: TP "{" :: concat (repeat [TNum 0; TP ","] n) ++ [TP "}"; TP "}"; TP ","].
Lemma zero_line n : ltext ((tab ++ lit "{0, 0, {" ++ concat (repeat (lit "0, ") n) ++ lit "}},") ++ nl) (map inl (zero_toks n)).
Proof.
  apply ltext_line.
  - unfold zero_toks. cbn [forallb clean andb]. rewrite forallb_app. cbn. rewrite andb_true_r. induction n as [|n IH]; [reflexivity|]. cbn. exact IH.
  - rewrite <- !app_assoc. change (tab ++ lit "{0, 0, {" ++ concat (repeat (lit "0, ") n) ++ lit "}}," ++ nl) with ((tab ++ lit "{0, 0, {") ++ concat (repeat (lit "0, ") n) ++ [125; 125; 44; 10]%N).
    rewrite (lex_pre (tab ++ lit "{0, 0, {") [TP "{"; TNum 0; TP ","; TNum 0; TP ","; TP "{"]) by reflexivity.
    assert (G : lex S0 (concat (repeat (lit "0, ") n)) = (concat (repeat [TNum 0; TP ","] n), S0)).
    { induction n as [|n IH]; [reflexivity|]. cbn [repeat concat]. rewrite (lex_pre (lit "0, ") [TNum 0; TP ","]) by reflexivity. rewrite IH. reflexivity. }
    rewrite (lex_pre _ _ _ G), !pre_pre. unfold pre, zero_toks. cbn [fst snd app]. rewrite <- ?app_assoc. reflexivity.
Qed.
(** Names of tables *)
Definition tname (t : tblname) : string := ascii_text (defname t).
Lemma defname_ident t : forallb name_char (lit (fst t)) = true -> namedb (defname t) = true.
Proof.
  intros H. unfold defname. change (lit "aVkToWch") with (97%N :: lit "VkToWch"). cbn [app namedb]. rewrite !forallb_app, H, dec_names. reflexivity.
Qed.
Definition tyname (n : nat) : string := ascii_text (lit "VK_TO_WCHARS" ++ dec (N.of_nat n)).
Lemma tyname_ident n : namedb (lit "VK_TO_WCHARS" ++ dec (N.of_nat n)) = true.
Proof. change (lit "VK_TO_WCHARS") with (86%N :: lit "K_TO_WCHARS"). cbn [app namedb]. rewrite forallb_app, dec_names. reflexivity. Qed.
Lemma table_comment t : ltext ((lit "/* map virtual key to flags and " ++ dec t ++ lit " unicode output characters */") ++ nl) [].
Proof.
  apply (ltext_line _ []); [reflexivity|]. rewrite <- !app_assoc.
  change (lit "/* map virtual key to flags and " ++ dec t ++ lit " unicode output characters */" ++ nl) with (lit "/* " ++ (lit "map virtual key to flags and " ++ dec t ++ lit " unicode output characters" ++ lit " */" ++ nl)).
  replace (lit "map virtual key to flags and " ++ dec t ++ lit " unicode output characters" ++ lit " */" ++ nl)
    with ((lit "map virtual key to flags and " ++ dec t ++ lit " unicode output characters") ++ lit " */" ++ nl) by (rewrite <- !app_assoc; reflexivity).
  rewrite comment_pre; [reflexivity|]. rewrite !forallb_app, (names_harmless _ (dec_names t)). reflexivity.
Qed.
Definition head_toks (ty n : string) : list tok := [TId "static"; TId ty; TId n; TP "["; TP "]"; TP "="; TP "{"].
Lemma table_head t : forallb name_char (lit (fst t)) = true ->
  ltext ((lit "static VK_TO_WCHARS" ++ dec (N.of_nat (snd t)) ++ lit " " ++ defname t ++ lit "[] = {") ++ nl) (map inl (head_toks (tyname (snd t)) (tname t))).
Proof.
  intros H. apply ltext_line; [reflexivity|].
  replace ((lit "static VK_TO_WCHARS" ++ dec (N.of_nat (snd t)) ++ lit " " ++ defname t ++ lit "[] = {") ++ nl)
    with (lit "static " ++ (lit "VK_TO_WCHARS" ++ dec (N.of_nat (snd t))) ++ 32%N :: defname t ++ 91%N :: lit "] = {" ++ nl) by (rewrite <- !app_assoc; reflexivity).
  rewrite (lex_pre (lit "static ") [TId "static"]) by reflexivity. rewrite lex_name_stop by (reflexivity || apply tyname_ident).
  change (32%N :: defname t ++ 91%N :: lit "] = {" ++ nl) with ([32%N] ++ defname t ++ 91%N :: lit "] = {" ++ nl).
  rewrite (lex_pre [32%N] []) by reflexivity. rewrite lex_name_stop by (reflexivity || apply defname_ident, H). rewrite !pre_pre. reflexivity.
Qed.
Definition entry_toks (t : tblname) : list tok :=
  [TP "{"; TP "("; TId "PVK_TO_WCHARS1"; TP ")"; TId (tname t); TP ","; TNum (N.of_nat (snd t)); TP ",";
   TId "sizeof"; TCall; TId (tname t); TP "["; TNum 0; TP "]"; TP ")"; TP "}"; TP ","].
Lemma entry_line t : forallb name_char (lit (fst t)) = true -> ltext (entryText t ++ nl) (map inl (entry_toks t)).
Proof.
  intros H. apply ltext_line; [reflexivity|]. unfold entryText.
  replace ((tab ++ lit "{(PVK_TO_WCHARS1) " ++ defname t ++ lit ", " ++ dec (N.of_nat (snd t)) ++ lit ", sizeof(" ++ defname t ++ lit "[0])},") ++ nl)
    with ((tab ++ lit "{(PVK_TO_WCHARS1) ") ++ defname t ++ 44%N :: [32]%N ++ dec (N.of_nat (snd t)) ++ 44%N :: lit " sizeof(" ++ defname t ++ 91%N :: lit "0])}," ++ nl) by (rewrite <- !app_assoc; reflexivity).
  rewrite (lex_pre (tab ++ lit "{(PVK_TO_WCHARS1) ") [TP "{"; TP "("; TId "PVK_TO_WCHARS1"; TP ")"]) by reflexivity.
  rewrite lex_name_stop by (reflexivity || apply defname_ident, H). fold (tname t).
  match goal with |- context [44%N :: [32%N] ++ ?x] => change (44%N :: [32%N] ++ x) with ([44; 32]%N ++ x) end.
  rewrite (lex_pre [44; 32]%N [TP ","]) by reflexivity. rewrite dec_stop by reflexivity.
  match goal with |- context [44%N :: lit " sizeof(" ++ ?x] => change (44%N :: lit " sizeof(" ++ x) with (lit ", sizeof(" ++ x) end.
  rewrite (lex_pre (lit ", sizeof(") [TP ","; TId "sizeof"; TCall]) by reflexivity.
  rewrite lex_name_stop by (reflexivity || apply defname_ident, H). fold (tname t). rewrite !pre_pre. reflexivity.
Qed.
