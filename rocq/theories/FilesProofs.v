(** Proofs about files of xmodmap and Keyman. *)
From Coq Require Import QArith Ascii Permutation.
From Verif Require Import Base KeyboardModel LayoutModel LayoutProofs DataKeyboard RenderModel KlcModel CsrcModel ExportModel ExportSpec ExportProofs CsrcSpec CsrcLex FilesModel FilesSpec.
Close Scope Q_scope.
Open Scope string_scope.
Open Scope list_scope.
Unset Implicit Arguments.

(** * Lines and words *)
Definition free (p : N -> bool) (t : text) : Prop := forall c, In c t -> p c = false.
Lemma free_cons p c t : free p (c :: t) -> p c = false /\ free p t.
Proof. intros H. split; [apply H; left; reflexivity|]. intros x Hx. apply H. right. exact Hx. Qed.
Lemma free_app p a b : free p a -> free p b -> free p (a ++ b).
Proof. intros A B c H. apply in_app_iff in H as [H|H]; auto. Qed.
Lemma cut_at p a c r : free p a -> p c = true -> cut p (a ++ c :: r) = (a, Some r).
Proof.
  intros F C. induction a as [|x a IH]; cbn [app cut]; [now rewrite C|].
  apply free_cons in F as [Fx F]. rewrite Fx, (IH F). reflexivity.
Qed.
Lemma cut_none p a : free p a -> cut p a = (a, None).
Proof.
  induction a as [|x a IH]; intros F; cbn [cut]; [reflexivity|]. apply free_cons in F as [Fx F]. rewrite Fx, (IH F). reflexivity.
Qed.
Lemma cut_shorter p t : forall a r, cut p t = (a, Some r) -> List.length r < List.length t.
Proof.
  induction t as [|c t IH]; intros a r; cbn [cut]; [discriminate|]. destruct (p c).
  - intros [= <- <-]. cbn [List.length]. lia.
  - destruct (cut p t) as [a' [r'|]] eqn:E; [|discriminate]. intros [= <- <-]. specialize (IH a' r' eq_refl). cbn [List.length]. lia.
Qed.
Lemma split_fuel p f : forall f' t, List.length t < f -> List.length t < f' -> split f p t = split f' p t.
Proof.
  induction f as [|f IH]; intros [|f'] t H H'; try lia. cbn [split]. destruct (cut p t) as [a [r|]] eqn:E; [|reflexivity].
  apply cut_shorter in E. rewrite (IH f' r) by lia. reflexivity.
Qed.
Lemma split_at p a c r : free p a -> p c = true -> split (S (List.length (a ++ c :: r))) p (a ++ c :: r) = a :: split (S (List.length r)) p r.
Proof.
  intros F C. set (n := List.length (a ++ c :: r)). cbn [split]. rewrite (cut_at p a c r F C). rewrite (split_fuel p n (S (List.length r)) r); [reflexivity| |lia].
  unfold n. rewrite app_length. cbn [List.length]. lia.
Qed.
Lemma split_none p a : free p a -> split (S (List.length a)) p a = [a].
Proof. intros F. cbn [split]. rewrite (cut_none p a F). reflexivity. Qed.
Definition ltext (ls : list text) : text := flat_map (fun l => l ++ [10%N]) ls.
Lemma lines_ltext ls : Forall (free is_nl) ls -> lines (ltext ls) = ls ++ [[]].
Proof.
  induction 1 as [|l ls Hl _ IH]; [reflexivity|]. cbn [ltext flat_map]. rewrite <- app_assoc. cbn [app]. unfold lines. rewrite (split_at is_nl l 10 _ Hl eq_refl).
  fold (ltext ls). fold (lines (ltext ls)). rewrite IH. reflexivity.
Qed.
Definition wordy (w : text) : Prop := w <> [] /\ free is_blank w.
Lemma words_at w c r : wordy w -> is_blank c = true -> FilesSpec.words (w ++ c :: r) = w :: FilesSpec.words r.
Proof.
  intros [N F] C. unfold FilesSpec.words. rewrite (split_at is_blank w c r F C). cbn [filter]. destruct w; [now elim N|reflexivity].
Qed.
Lemma words_blank c r : is_blank c = true -> FilesSpec.words (c :: r) = FilesSpec.words r.
Proof. intros C. unfold FilesSpec.words. change (c :: r) with ([] ++ c :: r). rewrite (split_at is_blank [] c r); [reflexivity|intros x []|exact C]. Qed.
Lemma words_one w : wordy w -> FilesSpec.words w = [w].
Proof. intros [N F]. unfold FilesSpec.words. rewrite (split_none is_blank w F). cbn [filter]. destruct w; [now elim N|reflexivity]. Qed.
Lemma words_join s ws : is_blank s = true -> Forall wordy ws -> FilesSpec.words (join [s] ws) = ws.
Proof.
  intros S H. induction H as [|w ws Hw Hws IH]; [reflexivity|]. cbn [join]. destruct ws as [|v ws]; [apply words_one, Hw|].
  cbn [app]. rewrite (words_at w s _ Hw S), IH. reflexivity.
Qed.
Lemma all_of_app {A B} (f : A -> option B) l l' bs bs' : all_of f l = Some bs -> all_of f l' = Some bs' -> all_of f (l ++ l') = Some (bs ++ bs').
Proof.
  revert bs. induction l as [|a l IH]; intros bs; cbn [all_of app]; [intros [= <-]; trivial|].
  destruct (f a) as [b|]; [|discriminate]. destruct (all_of f l) as [bl|]; [|discriminate]. intros [= <-] H. rewrite (IH bl eq_refl H). reflexivity.
Qed.
Lemma all_of_map {A B} (f : A -> option B) l bs : Forall2 (fun a b => f a = Some b) l bs -> all_of f l = Some bs.
Proof. induction 1 as [|a b l bs H _ IH]; cbn [all_of]; [reflexivity|]. rewrite H, IH. reflexivity. Qed.

(** * Numbers *)
Lemma lit_cons c s : lit (String c s) = N_of_ascii c :: lit s. Proof. reflexivity. Qed.
Lemma lit_app' a b : lit (a ++ b)%string = lit a ++ lit b.
Proof. induction a as [|c a IH]; [reflexivity|]. cbn [append]. rewrite !lit_cons, IH. reflexivity. Qed.
Lemma lit_length s : List.length (lit s) = String.length s.
Proof. induction s as [|c s IH]; [reflexivity|]. rewrite lit_cons. cbn [List.length String.length]. now rewrite IH. Qed.
Lemma hexnum_lit s : forall acc n, hex_read acc s = Some n -> hexnum acc (lit s) = Some n /\ (forall c, In c (lit s) -> (48 <= c <= 57 \/ 65 <= c <= 70)%N).
Proof.
  induction s as [|a s IH]; intros acc n; cbn [hex_read]; [intros [= <-]; split; [reflexivity|intros c []]|].
  rewrite lit_cons. unfold hexval. set (m := N_of_ascii a). cbn [hexnum]. unfold hexdig. clearbody m.
  destruct (N.leb_spec 48 m), (N.leb_spec m 57), (N.leb_spec 65 m), (N.leb_spec m 70); cbn [andb]; try (intros H'; discriminate H'); try lia; intros H';
    destruct (IH _ _ H') as [A B]; (split; [exact A|]); intros c [<-|I]; auto; lia.
Qed.
Lemma number_app a b acc : number acc (a ++ b) = match number acc a with Some x => number x b | None => None end.
Proof.
  revert acc. induction a as [|c a IH]; intros acc; cbn [app number]; [reflexivity|]. destruct ((48 <=? c) && (c <=? 57))%N; [apply IH|reflexivity].
Qed.
Lemma number_digits fuel : forall n acc x, (n < 10 ^ N.of_nat fuel)%N -> 0 < fuel ->
  exists k, number x (digits fuel 10 false n acc) = number (10 ^ k * x + n)%N acc.
Proof.
  induction fuel as [|f IH]; intros n acc x H H0; [lia|]. cbn [digits].
  assert (M : (n mod 10 < 10)%N) by (apply N.mod_lt; discriminate).
  assert (D : number 0 [digit false (n mod 10)] = Some (n mod 10)%N) by (unfold digit; rewrite (proj2 (N.ltb_lt _ _) M); cbn [number]; destruct (N.leb_spec 48 (48 + n mod 10)), (N.leb_spec (48 + n mod 10) 57); cbn [andb]; try lia; f_equal; lia).
  assert (D' : forall y, number y (digit false (n mod 10) :: acc) = number (10 * y + n mod 10)%N acc).
  { intros y. unfold digit. rewrite (proj2 (N.ltb_lt _ _) M). cbn [number]. destruct (N.leb_spec 48 (48 + n mod 10)), (N.leb_spec (48 + n mod 10) 57); cbn [andb]; try lia. f_equal. lia. }
  destruct (N.eqb_spec (n / 10) 0) as [E|E].
  - exists 1%N. rewrite D'. f_equal. pose proof (N.div_mod n 10). lia.
  - destruct f as [|f]; [exfalso; apply E; apply N.div_small; cbn in H; lia|].
    destruct (IH (n / 10)%N (digit false (n mod 10) :: acc) x) as [k Hk]; [|lia|].
    + apply N.div_lt_upper_bound; [discriminate|]. rewrite Nnat.Nat2N.inj_succ, N.pow_succ_r' in H. lia.
    + exists (N.succ k). rewrite Hk, D'. f_equal. rewrite N.pow_succ_r'. pose proof (N.div_mod n 10). lia.
Qed.
Lemma dec_number n : number 0 (dec n) = Some n.
Proof.
  unfold dec, num. destruct (number_digits (S (N.size_nat n)) n [] 0) as [k Hk]; [|lia|].
  - apply CsrcLex.size_bound. left. reflexivity.
  - rewrite Hk. cbn [number]. f_equal. lia.
Qed.
Lemma dec_digit n c : In c (dec n) -> (48 <= c <= 57)%N.
Proof. intros H. pose proof (dec_digits n) as F. rewrite Forall_forall in F. specialize (F c H). unfold is_dec in F. lia. Qed.
Lemma dec_nonempty n : dec n <> [].
Proof. unfold dec, num. destruct (digits_nonempty (S (N.size_nat n)) 10 false n []) as (c & r & ->); [lia|discriminate]. Qed.

(** * Symbols *)
Definition sym (s : string) (k : N) : Prop :=
  wordy (lit s) /\ free is_nl (lit s) /\ keysym_of (lit s) = Some k /\ char_of k = keysym_char s /\ column_of k = column s.
Lemma lit_inj a : forall b, lit a = lit b -> a = b.
Proof.
  induction a as [|c a IH]; intros [|d b]; rewrite ?lit_cons; intros E; try reflexivity; try discriminate E.
  injection E as E1 E2. apply (f_equal ascii_of_N) in E1. rewrite !ascii_N_embedding in E1. rewrite E1, (IH b E2). reflexivity.
Qed.
Lemma free_hex p t : (forall c, In c t -> (48 <= c <= 57 \/ 65 <= c <= 70)%N) -> (forall c, (48 <= c <= 57 \/ 65 <= c <= 70)%N -> p c = false) -> free p t.
Proof. intros A B c H. apply B, A, H. Qed.
Lemma find_named_U h : find (fun nk => eqb (lit (fst nk)) (85%N :: h)) named = None.
Proof.
  assert (G : forall l : list (string * N), forallb (fun nk => match lit (fst nk) with c :: _ => negb (c =? 85)%N | [] => true end) l = true ->
    find (fun nk => eqb (lit (fst nk)) (85%N :: h)) l = None).
  { induction l as [|nk l IH]; intros F; [reflexivity|]. cbn [forallb] in F. apply andb_prop in F as [F1 F2]. cbn [find].
    destruct (eqb_spec (lit (fst nk)) (85%N :: h)) as [E|_]; [rewrite E in F1; discriminate F1|exact (IH F2)]. }
  apply G. vm_compute. reflexivity.
Qed.
Lemma sym_fixed s : In s ["NoSymbol"; "Tab"; "Return"; "space"; "BackSpace"; "Shift_L"; "Shift_Lock"; "ISO_Group_Shift"; "ISO_First_Group"; "ISO_Level3_Shift"; "ISO_Level3_Lock"] ->
  exists k, sym s k.
Proof.
  assert (F : forall s, forallb (fun c => negb (is_blank c) && negb (is_nl c)) (lit s) = true -> lit s <> [] -> wordy (lit s) /\ free is_nl (lit s)).
  { clear s. intros s H N. rewrite forallb_forall in H. split; [split; [exact N|]|]; intros c I; specialize (H c I); destruct (is_blank c), (is_nl c); try discriminate H; reflexivity. }
  intros H. cbn [In] in H.
  repeat (destruct H as [<-|H]; [match goal with |- exists k, sym ?x k => destruct (F x) as [A B]; [vm_compute; reflexivity|discriminate|];
    exists (match keysym_of (lit x) with Some k => k | None => 0%N end); split; [exact A|split; [exact B|]]; vm_compute; repeat split end|]). destruct H.
Qed.
Lemma sym_U n : control n = false -> (n < 0x110000)%N -> exists k, sym ("U" ++ hex4 n) k.
Proof.
  intros C B. destruct (hexnum_lit (hex4 n) 0 n (hex4_read n)) as [Hn Hc]. pose proof (hex4_length n) as Hl.
  rewrite <- lit_length in Hl. pose proof (keysym_char_U n) as Hk. unfold sym. rewrite Hk. clear Hk.
  assert (Hcol : column ("U" ++ hex4 n) = 0).
  { unfold column. destruct (dget _ ("U" ++ hex4 n)%string) eqn:D; [|reflexivity]. apply dget_In in D. cbn [append In] in D. decompose [or] D; try discriminate; contradiction. }
  rewrite Hcol. change (lit ("U" ++ hex4 n)) with (85%N :: lit (hex4 n)).
  assert (U : unicode_keysym n = Some (if (n <? 256)%N then n else n + 0x1000000)%N).
  { unfold unicode_keysym. rewrite C. destruct (n <? 256)%N; [reflexivity|]. destruct (N.ltb_spec n 0x110000); [reflexivity|lia]. }
  exists (if (n <? 256)%N then n else n + 0x1000000)%N.
  assert (K : forall c, In c (85%N :: lit (hex4 n)) -> (48 <= c <= 57 \/ 65 <= c <= 70 \/ c = 85)%N) by (intros c [<-|I]; [right; right; reflexivity|destruct (Hc c I); auto]).
  split; [split; [discriminate|]|split; [|split; [|split]]].
  - intros c I. specialize (K c I). unfold is_blank. lia.
  - intros c I. specialize (K c I). unfold is_nl. lia.
  - unfold keysym_of. rewrite find_named_U. destruct (lit (hex4 n)) as [|a h]; [cbn in Hl; lia|]. rewrite Hn. exact U.
  - clear - C B. unfold char_of. destruct (N.ltb_spec n 256) as [L|L].
    + destruct (N.eqb_spec n 0xff08), (N.eqb_spec n 0xff09), (N.eqb_spec n 0xff0d); try lia. rewrite (proj2 (N.ltb_lt _ _) L), C. reflexivity.
    + destruct (N.eqb_spec (n + 0x1000000) 0xff08), (N.eqb_spec (n + 0x1000000) 0xff09), (N.eqb_spec (n + 0x1000000) 0xff0d); try lia.
      destruct (N.ltb_spec (n + 0x1000000) 256); [lia|]. cbn [andb]. destruct (N.leb_spec 0x1000100 (n + 0x1000000)), (N.ltb_spec (n + 0x1000000) 0x1110000); cbn [andb]; try lia. f_equal. lia.
  - clear. unfold column_of. destruct (N.ltb_spec n 256); [|]; repeat (match goal with |- context [(?a =? ?b)%N] => destruct (N.eqb_spec a b) end; try lia); try reflexivity.
Qed.

(** * xmodmap *)
Definition known (s : string) : Prop := exists k, sym s k.
Lemma keysym_known c s : keysym c = Ok s -> (forall x, c = Some (CText [x]) -> typable x) -> known s.
Proof.
  intros H T. unfold keysym in H. destruct c as [[t|]|]; [|discriminate|injection H as <-; apply sym_fixed; left; reflexivity].
  destruct t as [|x [|y t]]; cbn [ord_ bind] in H; [injection H as <-; apply sym_fixed; left; reflexivity| |discriminate].
  specialize (T x eq_refl). destruct (dget specialMap [x]) as [k|] eqn:E.
  - injection H as <-. apply dget_In in E. cbn in E. destruct E as [E|[E|[E|[E|[]]]]]; inversion E; subst; apply sym_fixed; cbn; tauto.
  - injection H as <-. destruct T as [T|[C B]]; [|exact (sym_U x C B)]. destruct T as [->|[->| -> ]]; discriminate E.
Qed.
Definition all_known (d : keycodes) : Prop := forall b l, In (b, l) d -> Forall known l.
Lemma In_dset_cases {A B} `{EqDec A} (d : list (A * B)) k v x y : In (x, y) (dset d k v) -> (x, y) = (k, v) \/ In (x, y) d.
Proof.
  induction d as [|[a b] d IH]; cbn [dset In]; [intros [E|[]]; left; auto|].
  destruct (eqb_spec k a) as [->|N]; cbn [In]; intros [E|I]; auto. destruct (IH I); auto.
Qed.
Lemma known_kappend d b s : all_known d -> known s -> all_known (kappend d b s).
Proof.
  intros D S x l I. unfold kappend in I. apply In_dset_cases in I as [E|I]; [|exact (D x l I)]. injection E as -> ->.
  apply Forall_app. split; [|constructor; [exact S|constructor]]. destruct (dget d b) as [o|] eqn:G; [|constructor]. apply dget_In in G. exact (D b o G).
Qed.
Lemma known_column ls us d i d' : all_typable ls -> all_known d -> xcolumn (layout_new ls) us d i = Ok d' -> all_known d'.
Proof.
  intros T D. unfold xcolumn. rewrite layout_new_layers. destruct (nth_error ls i) as [l|] eqn:E.
  - revert d D. induction us as [|u us IH]; intros d D; cbn [foldM]; [intros [= <-]; exact D|].
    destruct (isModifier (layout_new ls) (frozenset [kb_name u])); cbn [bind]; [apply IH, D|].
    destruct (keysym (dget (llayout l) (kb_name u))) as [s|] eqn:K; cbn [bind]; [|discriminate]. apply IH, known_kappend; [exact D|].
    refine (keysym_known _ _ K _). intros x G. apply dget_In in G. exact (T l _ x (nth_error_In _ _ E) G).
  - intros [= <-]. revert d D. induction us as [|u us IH]; intros d D; cbn [fold_left]; [exact D|].
    apply IH, known_kappend; [exact D|apply sym_fixed; left; reflexivity].
Qed.
Lemma known_columns ls us is d d' : all_typable ls -> all_known d -> foldM (xcolumn (layout_new ls) us) is d = Ok d' -> all_known d'.
Proof.
  intros T. revert d. induction is as [|i is IH]; intros d D; cbn [foldM]; [intros [= <-]; exact D|].
  destruct (xcolumn (layout_new ls) us d i) as [d1|] eqn:E; cbn [bind]; [|discriminate]. apply IH, (known_column ls us d i d1 T D E).
Qed.
Lemma known_layerMap i v : nth_error layerMap i = Some v -> Forall known v.
Proof.
  do 4 (destruct i as [|i]; [intros [= <-]; repeat (constructor; [apply sym_fixed; cbn; tauto|]); constructor|]). destruct i; discriminate.
Qed.
Lemma known_modifiers ims d d' : all_known d -> foldM (fun d im => xmodifier (fst im) d (snd im)) ims d = Ok d' -> all_known d'.
Proof.
  revert d. induction ims as [|[i m] ims IH]; intros d D; cbn [foldM fst snd]; [intros [= <-]; exact D|].
  destruct (xmodifier i d m) as [d1|] eqn:E; cbn [bind]; [|discriminate]. apply IH.
  unfold xmodifier in E. destruct (assert_ _) as [?|]; cbn [bind] in E; [|discriminate]. destruct (elems m) as [|b r]; [injection E as <-; exact D|].
  destruct (nth_error layerMap i) as [v|] eqn:N; cbn [of_opt bind] in E; [|discriminate]. injection E as <-.
  intros x l I. apply In_dset_cases in I as [E|I]; [injection E as -> ->; exact (known_layerMap i v N)|exact (D x l I)].
Qed.
Lemma known_lines kb ls xs : all_typable ls -> renderXmodmap kb (layout_new ls) = Ok xs ->
  Forall (fun x => Forall known (xsyms x) /\ exists b, In b (keys kb) /\ kb_name b = xname x) xs.
Proof.
  intros T. unfold renderXmodmap. destruct (foldM (xcolumn (layout_new ls) (unique (keys kb) kb_xorg)) xorder []) as [d|] eqn:E; cbn [bind]; [|discriminate].
  rewrite xmodifiers_flat. destruct (foldM (fun d im => xmodifier (fst im) d (snd im)) (all_mods (layers (layout_new ls))) d) as [d1|] eqn:E1; cbn [bind]; [|discriminate]. intros E2. apply mapM_lines in E2.
  assert (K : all_known d1). { refine (known_modifiers _ _ _ _ E1). refine (known_columns ls _ _ _ _ T _ E). intros b l []. }
  clear - K E2. induction E2 as [|[b v] x d xs (k & B & ->) F IH]; constructor; cbn [fst snd xname xsyms].
  - split; [exact (K b v (or_introl eq_refl))|]. unfold button in B. destruct (find _ (keys kb)) as [k'|] eqn:Q; [|discriminate]. injection B as ->.
    apply find_some in Q as [I Q]. apply String.eqb_eq in Q. eauto.
  - apply IH. intros b' l' I. exact (K b' l' (or_intror I)).
Qed.
Lemma comment_line w t : (match w with 33%N :: _ => true | _ => false end) = true -> free is_blank w -> xread_line (w ++ 32%N :: t) = Some [].
Proof.
  intros H F. unfold xread_line. rewrite words_at; [|split; [intros ->; discriminate H|exact F]|reflexivity].
  destruct w as [|c w]; [discriminate H|]. destruct c as [|p]; [discriminate H|]. do 6 (destruct p as [p|p|]; try discriminate H). reflexivity.
Qed.
Definition headLines (name now : text) : list text :=
  [lit "!! auto-generated xmodmap"; lit "!! layout: " ++ name; lit "!! generated: " ++ now; []; lit "clear Lock"; lit "clear Mod2"; lit "clear Mod3"; lit "clear Mod5"].
Lemma head_lines name now : xmodmapHead name now = ltext (headLines name now).
Proof. unfold xmodmapHead, headLines, nl. cbn [join ltext flat_map]. rewrite <- !app_assoc. cbn [app]. reflexivity. Qed.
Lemma lit_free p s : forallb (fun c => negb (p c)) (lit s) = true -> free p (lit s).
Proof. intros H c I. rewrite forallb_forall in H. specialize (H c I). destruct (p c); [discriminate H|reflexivity]. Qed.
Lemma head_free name now : free is_nl name -> free is_nl now -> Forall (free is_nl) (headLines name now).
Proof.
  intros A B. repeat constructor; try (apply lit_free; reflexivity); try (apply free_app; [apply lit_free; reflexivity|assumption]). intros c [].
Qed.
Definition clears : list xcmd := [Clear (lit "Lock"); Clear (lit "Mod2"); Clear (lit "Mod3"); Clear (lit "Mod5")].
Definition adds : list xcmd := [Add (lit "Mod3") [0xfe0c]%N; Add (lit "Mod5") [0xfe03]%N].
Lemma head_read name now : exists bs, all_of xread_line (headLines name now) = Some bs /\ concat bs = clears.
Proof.
  exists ([[]; []; []; []] ++ map (fun x => [x]) clears). split; [|reflexivity]. apply all_of_map. unfold headLines.
  constructor; [vm_compute; reflexivity|]. constructor; [apply (comment_line (lit "!!")); [reflexivity|apply lit_free; reflexivity]|].
  constructor; [apply (comment_line (lit "!!")); [reflexivity|apply lit_free; reflexivity]|]. repeat (constructor; [vm_compute; reflexivity|]). constructor.
Qed.
Definition xlineLines (x : xline) : list text :=
  [lit "!! " ++ lit (xname x); lit "keycode " ++ dec (xcode x) ++ lit " = " ++ join tab (map lit (xsyms x))].
Lemma xline_lines x : xlineText x = ltext (xlineLines x).
Proof. unfold xlineText, xlineLines, nl. cbn [ltext flat_map]. rewrite <- !app_assoc. cbn [app]. reflexivity. Qed.
Lemma free_join p sep l : free p sep -> Forall (free p) l -> free p (join sep l).
Proof.
  intros S H. induction H as [|x l Hx Hl IH]; [intros c []|]. cbn [join]. destruct l; [exact Hx|]. apply free_app; [exact Hx|]. apply free_app; assumption.
Qed.
Lemma known_free l : Forall known l -> Forall (free is_nl) (map lit l) /\ Forall wordy (map lit l).
Proof. induction 1 as [|s l (k & W & F & _) _ [A B]]; cbn [map]; split; constructor; auto. Qed.
Lemma known_syms l : Forall known l -> exists ks, Forall2 sym l ks.
Proof. induction 1 as [|s l (k & H) _ (ks & F)]; [exists []; constructor|exists (k :: ks); constructor; auto]. Qed.
Lemma xline_free x : Forall known (xsyms x) -> free is_nl (lit (xname x)) -> Forall (free is_nl) (xlineLines x).
Proof.
  intros K F. constructor; [apply free_app; [apply lit_free; reflexivity|exact F]|]. constructor; [|constructor].
  apply free_app; [apply lit_free; reflexivity|]. apply free_app; [intros c I; apply dec_digit in I; unfold is_nl; lia|].
  apply free_app; [apply lit_free; reflexivity|]. apply free_join; [intros c [<-|[]]; reflexivity|apply known_free, K].
Qed.
Definition cmd_of (x : xline) (c : xcmd) : Prop := exists ks, Forall2 sym (xsyms x) ks /\ c = Keycode (xcode x) ks.
Lemma all_of_syms l ks : Forall2 sym l ks -> all_of keysym_of (map lit l) = Some ks.
Proof. intros F. apply all_of_map. induction F as [|s k l ks (_ & _ & H & _) _ IH]; constructor; auto. Qed.
Lemma xline_read x : Forall known (xsyms x) -> exists c, cmd_of x c /\ all_of xread_line (xlineLines x) = Some [[]; [c]].
Proof.
  intros K. destruct (known_syms _ K) as (ks & F). exists (Keycode (xcode x) ks). split; [exists ks; auto|]. apply all_of_map. unfold xlineLines.
  constructor; [apply (comment_line (lit "!!")); [reflexivity|apply lit_free; reflexivity]|]. constructor; [|constructor].
  unfold xread_line. change (lit "keycode " ++ ?r) with (lit "keycode" ++ 32%N :: r).
  rewrite words_at; [|split; [discriminate|apply lit_free; reflexivity]|reflexivity].
  change (lit " = " ++ ?r) with (32%N :: lit "=" ++ 32%N :: r).
  rewrite (words_at (dec (xcode x))); [|split; [apply dec_nonempty|intros c I; apply dec_digit in I; unfold is_blank; lia]|reflexivity].
  rewrite (words_at (lit "=")); [|split; [discriminate|apply lit_free; reflexivity]|reflexivity].
  unfold tab. rewrite words_join; [|reflexivity|apply known_free, K]. rewrite dec_number, (all_of_syms _ _ F). reflexivity.
Qed.
Lemma xlines_read xs : Forall (fun x => Forall known (xsyms x)) xs -> exists bs cs, Forall2 cmd_of xs cs /\ all_of xread_line (flat_map xlineLines xs) = Some bs /\ concat bs = cs.
Proof.
  induction 1 as [|x xs K _ (bs & cs & F & R & C)]; [exists [], []; repeat split; constructor|].
  destruct (xline_read x K) as (c & Hc & Rc). exists ([[]; [c]] ++ bs), (c :: cs). split; [constructor; auto|]. split; [|cbn; now rewrite C].
  cbn [flat_map]. apply all_of_app; assumption.
Qed.
Lemma ltext_app a b : ltext (a ++ b) = ltext a ++ ltext b.
Proof. apply flat_map_app. Qed.
Lemma ltext_flat {A} (f : A -> list text) l : ltext (flat_map f l) = flat_map (fun x => ltext (f x)) l.
Proof. induction l as [|x l IH]; [reflexivity|]. cbn [flat_map]. now rewrite ltext_app, IH. Qed.
Lemma Forall_flat {A B} (P : B -> Prop) (f : A -> list B) l : Forall (fun x => Forall P (f x)) l -> Forall P (flat_map f l).
Proof. induction 1; cbn [flat_map]; [constructor|apply Forall_app; auto]. Qed.
Lemma xread_ltext ls bs : Forall (free is_nl) ls -> all_of xread_line ls = Some bs -> xread (ltext ls) = Some (concat bs).
Proof.
  intros F R. unfold xread. rewrite lines_ltext by exact F. rewrite (all_of_app xread_line ls [[]] bs [[]] R eq_refl). cbn [option_map]. rewrite concat_app. cbn [concat app]. now rewrite !app_nil_r.
Qed.
Lemma free_nl t : ~ In 10%N t -> free is_nl t.
Proof. intros H c I. unfold is_nl. destruct (N.eqb_spec c 10) as [->|N]; [contradiction|reflexivity]. Qed.
Lemma xmodmap_read name now kb ls xs : ~ In 10%N name -> ~ In 10%N now -> kbd_plain kb -> all_typable ls -> renderXmodmap kb (layout_new ls) = Ok xs ->
  exists t cs, xmodmapFile name now kb (layout_new ls) = (t, None) /\ Forall2 cmd_of xs cs /\ xread t = Some (clears ++ cs ++ adds).
Proof.
  intros Hn Hw Hk T E. unfold xmodmapFile. rewrite E. pose proof (known_lines kb ls xs T E) as K.
  assert (K' : Forall (fun x => Forall known (xsyms x)) xs) by (eapply Forall_impl; [|exact K]; intros x [H _]; exact H).
  destruct (xlines_read xs K') as (bs & cs & F & R & C). destruct (head_read name now) as (hs & Hh & Ch). eexists. exists cs. split; [reflexivity|]. split; [exact F|].
  assert (X : xmodmapHead name now ++ flat_map xlineText xs ++ xmodmapTail =
    ltext (headLines name now ++ flat_map xlineLines xs ++ [lit "add Mod3 = ISO_First_Group"; lit "add Mod5 = ISO_Level3_Shift"])).
  { rewrite !ltext_app, ltext_flat, head_lines. f_equal. rewrite (flat_map_ext _ _ xline_lines). reflexivity. }
  rewrite X. rewrite (xread_ltext _ (hs ++ bs ++ map (fun x => [x]) adds)).
  - rewrite !concat_app, Ch, C. reflexivity.
  - apply Forall_app. split; [apply head_free; apply free_nl; assumption|]. apply Forall_app. split.
    + apply Forall_flat. eapply Forall_impl; [|exact K]. intros x (A & b & Ib & Eb). apply xline_free; [exact A|]. rewrite <- Eb. apply free_nl, Hk, Ib.
    + repeat constructor; apply lit_free; reflexivity.
  - apply all_of_app; [exact Hh|]. apply all_of_app; [exact R|]. apply all_of_map. repeat (constructor; [vm_compute; reflexivity|]). constructor.
Qed.

(** What keys do *)
Lemma find_cmds code xs cs : Forall2 cmd_of xs cs ->
  match find (fun l => N.eqb (xcode l) code) xs, find (keycode_of code) cs with
  | Some x, Some c => cmd_of x c | None, None => True | _, _ => False end.
Proof.
  induction 1 as [|x c xs cs (ks & S & ->) _ IH]; cbn [find]; [exact I|]. cbn [keycode_of]. destruct (N.eqb_spec (xcode x) code); [exists ks; auto|exact IH].
Qed.
Lemma Forall2_rev' {A B} (R : A -> B -> Prop) l l' : Forall2 R l l' -> Forall2 R (rev l) (rev l').
Proof. induction 1; cbn [rev]; [constructor|apply Forall2_app; auto]. Qed.
Lemma now_has_effective code xs cs : Forall2 cmd_of xs cs ->
  match effective xs code, now_has (clears ++ cs ++ adds) code with
  | Some ss, Some ks => Forall2 sym ss ks | None, None => True | _, _ => False end.
Proof.
  intros F. unfold effective, now_has. rewrite !rev_app_distr. cbn [rev adds app find keycode_of].
  rewrite find_app. pose proof (find_cmds code _ _ (Forall2_rev' _ _ _ F)) as H.
  destruct (find _ (rev xs)) as [x|], (find _ (rev cs)) as [c|]; cbn [option_map]; try contradiction.
  - destruct H as (ks & S & ->). exact S.
  - cbn. exact I.
Qed.
Lemma key_types_spec xs cs held code : Forall2 cmd_of xs cs -> key_types (clears ++ cs ++ adds) held code = x_types xs held code.
Proof.
  intros F. assert (C : column_held (clears ++ cs ++ adds) held = selected xs held).
  { unfold column_held, selected. destruct held as [h|]; [|reflexivity]. pose proof (now_has_effective h xs cs F) as H.
    destruct (effective xs h) as [ss|], (now_has _ h) as [ks|]; try contradiction; [|reflexivity]. destruct H as [|s k ss ks (_ & _ & _ & _ & H) _]; [reflexivity|exact H]. }
  unfold key_types, x_types. rewrite C. generalize (selected xs held) as n. intros n. pose proof (now_has_effective code xs cs F) as H.
  destruct (effective xs code) as [ss|], (now_has _ code) as [ks|]; try contradiction; [|reflexivity]. clear - H.
  revert n. induction H as [|s k ss ks (_ & _ & _ & H & _) _ IH]; intros [|n]; cbn [nth_error]; auto.
Qed.

(** * Keyman *)
Definition kheadLines (name now : text) : list text :=
  [lit "c Auto-generated file for Keyman 11.0"; lit "c layout: " ++ name; lit "c generated: " ++ now; [];
   lit "store(&version) " ++ quote ++ lit "9.0" ++ quote;
   lit "store(&name)    " ++ quote ++ name ++ quote;
   lit "store(&mnemoniclayout) " ++ quote ++ lit "0" ++ quote;
   lit "store(&targets) " ++ quote ++ lit "any" ++ quote; [];
   lit "begin Unicode > use(main)"; lit "group(main) using keys"].
Lemma khead_lines name now : keymanHead name now = ltext (kheadLines name now).
Proof. unfold keymanHead, kheadLines, nl. cbn [join ltext flat_map]. rewrite <- !app_assoc. cbn [app]. reflexivity. Qed.
Definition kruleLine (r : krule) : text := lit "+ [" ++ join (lit " ") (map lit (kkeys r)) ++ lit "] > " ++ join (lit " ") (map lit (kout r)).
Lemma krule_line r : kruleText r = ltext [kruleLine r].
Proof. unfold kruleText, kruleLine, nl. cbn [ltext flat_map]. rewrite app_nil_r, <- !app_assoc. reflexivity. Qed.
(** Texts that end in no backslash *)
Definition no_bs (t : text) : Prop := match rev t with 92%N :: _ => False | _ => True end.
Lemma no_bs_free t : ~ In 92%N t -> no_bs t.
Proof.
  intros H. unfold no_bs. destruct (rev t) as [|c r] eqn:E; [exact I|]. destruct (N.eqb_spec c 92) as [->|N].
  - exfalso. apply H, in_rev. rewrite E. left. reflexivity.
  - destruct c as [|p]; [exact I|]. do 7 (destruct p as [p|p|]; try exact I). now elim N.
Qed.
Lemma no_bs_app a b : b <> [] -> no_bs b -> no_bs (a ++ b).
Proof.
  intros Hb H. unfold no_bs in *. rewrite rev_app_distr. destruct (rev b) as [|c r] eqn:E; [|exact H]. apply (f_equal (@rev N)) in E. rewrite rev_involutive in E. contradiction.
Qed.
Lemma kread_line_bs t : no_bs t -> kread_line t = match t with
  | [] => Some []
  | 99%N :: 32%N :: _ => Some []
  | _ => option_map (fun s => [s])
      match after (lit "+ [") t with
      | Some r => kread_rule r
      | None => match after (lit "store(&") t with
                | Some r => kread_store r
                | None => if eqb t (lit "begin Unicode > use(main)") then Some Begin
                          else if eqb t (lit "group(main) using keys") then Some Group else None
                end
      end
  end.
Proof.
  unfold no_bs, kread_line. destruct (rev t) as [|c r]; [reflexivity|]. destruct c as [|p]; [reflexivity|].
  do 7 (destruct p as [p|p|]; try reflexivity). intros [].
Qed.
Lemma after_app p t : after p (p ++ t) = Some t.
Proof. induction p as [|c p IH]; [reflexivity|]. cbn [app after]. rewrite N.eqb_refl. exact IH. Qed.
Lemma kcomment t : no_bs t -> kread_line (lit "c " ++ t) = Some [].
Proof.
  intros H. rewrite kread_line_bs; [reflexivity|]. destruct t; [vm_compute; exact I|apply no_bs_app; [discriminate|exact H]].
Qed.
Definition kstores (name : text) : list kstmt :=
  [Store (lit "version") (lit "9.0"); Store (lit "name") name; Store (lit "mnemoniclayout") (lit "0"); Store (lit "targets") (lit "any"); Begin; Group].
Lemma khead_read name now : ~ In 34%N name -> no_bs name -> no_bs now ->
  exists bs, all_of kread_line (kheadLines name now) = Some bs /\ concat bs = kstores name.
Proof.
  intros Q Hn Hw. exists ([[]; []; []; []] ++ map (fun x => [x]) (firstn 4 (kstores name)) ++ [[]; [Begin]; [Group]]). split; [|reflexivity]. apply all_of_map. unfold kheadLines.
  constructor; [vm_compute; reflexivity|].
  assert (A : forall a t, lit a <> [] -> no_bs (lit a) -> no_bs t -> no_bs (lit a ++ t)).
  { intros a [|c t] B C D; [rewrite app_nil_r; exact C|apply no_bs_app; [discriminate|exact D]]. }
  constructor. { change (lit "c layout: " ++ name) with (lit "c " ++ lit "layout: " ++ name). apply kcomment, A; [discriminate|vm_compute; exact I|exact Hn]. }
  constructor. { change (lit "c generated: " ++ now) with (lit "c " ++ lit "generated: " ++ now). apply kcomment, A; [discriminate|vm_compute; exact I|exact Hw]. }
  constructor; [reflexivity|]. constructor; [vm_compute; reflexivity|].
  constructor; [|repeat (constructor; [vm_compute; reflexivity|]); constructor].
  rewrite kread_line_bs by (rewrite !app_assoc; apply no_bs_app; [discriminate|vm_compute; exact I]).
  change (lit "store(&name)    " ++ quote ++ name ++ quote) with (lit "store(&" ++ lit "name" ++ 41%N :: lit "    " ++ 34%N :: name ++ [34%N]).
  assert (E : kread_store (lit "name" ++ 41%N :: lit "    " ++ 34%N :: name ++ [34%N]) = Some (Store (lit "name") name)).
  { unfold kread_store. rewrite (cut_at is_paren (lit "name") 41); [|apply lit_free; reflexivity|reflexivity].
    rewrite (cut_at is_quote (lit "    ") 34); [|apply lit_free; reflexivity|reflexivity].
    rewrite (cut_at is_quote name 34); [reflexivity| |reflexivity]. intros c I. unfold is_quote. destruct (N.eqb_spec c 34) as [->|]; [contradiction|reflexivity]. }
  remember (lit "name" ++ 41%N :: lit "    " ++ 34%N :: name ++ [34%N]) as r eqn:Er. cbn -[kread_store]. rewrite E. reflexivity.
Qed.

Lemma hexdigits_length fuel : forall n k acc, (n < 16 ^ N.of_nat k)%N -> 0 < k -> List.length (hexdigits fuel n acc) <= k + List.length acc.
Proof.
  induction fuel as [|fuel IH]; intros n k acc B K; cbn [hexdigits]; [lia|]. destruct (N.eqb_spec (n / 16) 0) as [E|E]; [cbn [List.length]; lia|].
  destruct k as [|k]; [lia|]. rewrite Nnat.Nat2N.inj_succ, N.pow_succ_r' in B.
  destruct k as [|k]; [cbn in B; exfalso; apply E; apply N.div_small; lia|].
  specialize (IH (n / 16)%N (S k) (hexchar (n mod 16) :: acc)). cbn [List.length] in IH. enough (n / 16 < 16 ^ N.of_nat (S k))%N by (specialize (IH H); lia).
  apply N.div_lt_upper_bound; [lia|exact B].
Qed.
Lemma hex4_short n : (n < 0x110000)%N -> List.length (lit (hex4 n)) <= 6.
Proof.
  intros B. rewrite lit_length. unfold hex4. rewrite string_length_list, app_length, repeat_length.
  pose proof (hexdigits_length (S (N.size_nat n)) n 6 []) as H. cbn [List.length] in H. unfold hex. enough (n < 16 ^ N.of_nat 6)%N by (specialize (H H0); lia). cbn. lia.
Qed.
Lemma uplus_U n : (n < 0x110000)%N -> uplus (lit ("U+" ++ hex4 n)) = Some n.
Proof.
  intros B. pose proof (hex4_short n B) as S. pose proof (hex4_length n) as L. rewrite <- lit_length in L. destruct (hexnum_lit (hex4 n) 0 n (hex4_read n)) as [H _].
  unfold uplus. rewrite lit_app', after_app. rewrite (proj2 (Nat.leb_le _ _) L), (proj2 (Nat.leb_le _ _) S). exact H.
Qed.
Lemma U_wordy n : wordy (lit ("U+" ++ hex4 n)) /\ free is_nl (lit ("U+" ++ hex4 n)) /\ ~ In 92%N (lit ("U+" ++ hex4 n)).
Proof.
  destruct (hexnum_lit (hex4 n) 0 n (hex4_read n)) as [_ Hc]. rewrite lit_app'.
  assert (K : forall c, In c (lit "U+" ++ lit (hex4 n)) -> (48 <= c <= 57 \/ 65 <= c <= 70 \/ c = 85 \/ c = 43)%N).
  { intros c I. apply in_app_iff in I as [[<-|[<-|[]]]|I]; [right; right; left; reflexivity|right; right; right; reflexivity|destruct (Hc c I); auto]. }
  split; [split; [discriminate|]|split]; try intros c I; [| |intros I]; specialize (K _ I); unfold is_blank, is_nl; lia.
Qed.
Lemma code_wordy s : code_ok s -> wordy (lit s) /\ free is_nl (lit s) /\ free is_close (lit s).
Proof.
  intros [N H]. split; [split|split].
  - destruct s; [now elim N|discriminate].
  - intros c I. specialize (H c I). cbn [In] in H. unfold is_blank. lia.
  - intros c I. specialize (H c I). cbn [In] in H. unfold is_nl. lia.
  - intros c I. specialize (H c I). cbn [In] in H. unfold is_close. lia.
Qed.
Lemma In_join sep l c : In c (join sep l) -> In c sep \/ exists t, In t l /\ In c t.
Proof.
  induction l as [|x l IH]; [intros []|]. cbn [join]. destruct l as [|y l]; [intros I; right; exists x; split; [left; reflexivity|exact I]|].
  intros I. apply in_app_iff in I as [I|I]; [right; exists x; split; [left; reflexivity|exact I]|]. apply in_app_iff in I as [I|I]; [auto|].
  destruct (IH I) as [H|(t & It & H)]; [auto|right; exists t; split; [right; exact It|exact H]].
Qed.
Lemma join_nonempty sep x l : x <> [] -> join sep (x :: l) <> [].
Proof. intros H. cbn [join]. destruct l; [exact H|]. destruct x; [now elim H|discriminate]. Qed.
Lemma krule_read ks t : ks <> [] -> Forall code_ok ks -> t <> [] -> Forall (fun c => (c < 0x110000)%N) t ->
  kread_line (kruleLine (mkK ks (map (fun c => ("U+" ++ hex4 c)%string) t))) = Some [Rule (map lit ks) t].
Proof.
  intros Nk Fk Nt Ft. unfold kruleLine. cbn [kkeys kout]. set (A := join (lit " ") (map lit ks)). set (B := join (lit " ") (map lit (map (fun c => ("U+" ++ hex4 c)%string) t))).
  assert (NB : no_bs B).
  { apply no_bs_free. intros I. apply In_join in I as [[E|[]]|(w & Iw & I)]; [discriminate E|]. rewrite map_map in Iw. apply in_map_iff in Iw as (c & <- & _). apply (proj2 (proj2 (U_wordy c))), I. }
  assert (NE : B <> []). { unfold B. destruct t as [|c t]; [now elim Nt|]. cbn [map]. apply join_nonempty. discriminate. }
  rewrite kread_line_bs by (apply no_bs_app; [destruct A; discriminate|]; apply no_bs_app; [discriminate|]; apply no_bs_app; assumption).
  assert (E : kread_rule (A ++ 93%N :: lit " > " ++ B) = Some (Rule (map lit ks) t)).
  { unfold kread_rule. rewrite cut_at; [| |reflexivity].
    2: { apply free_join; [apply lit_free; reflexivity|]. clear - Fk. induction Fk as [|k ks H _ IH]; cbn [map]; constructor; [apply code_wordy, H|exact IH]. }
    change (lit " > " ++ B) with (32%N :: lit ">" ++ 32%N :: B). rewrite words_blank by reflexivity.
    rewrite words_at; [|split; [discriminate|apply lit_free; reflexivity]|reflexivity].
    rewrite eqb_refl. unfold A, B. change (lit " ") with [32%N].
    rewrite !words_join; try reflexivity.
    - rewrite map_map. assert (U : all_of uplus (map (fun c => lit ("U+" ++ hex4 c)%string) t) = Some t).
      { apply all_of_map. clear - Ft. induction Ft as [|c t H _ IH]; cbn [map]; constructor; [apply uplus_U, H|exact IH]. }
      revert U. destruct ks as [|k ks]; [now elim Nk|]. destruct t as [|c t]; [now elim Nt|]. cbn [map]. intros ->. reflexivity.
    - rewrite map_map. clear. induction t as [|c t IH]; cbn [map]; constructor; [apply U_wordy|exact IH].
    - clear - Fk. induction Fk as [|k ks H _ IH]; cbn [map]; constructor; [apply code_wordy, H|exact IH]. }
  change (A ++ lit "] > " ++ B) with (A ++ 93%N :: lit " > " ++ B). remember (A ++ 93%N :: lit " > " ++ B) as r eqn:Er. cbn -[kread_rule]. rewrite E. reflexivity.
Qed.

Section File.
  Variables (kb : kbd) (ord : bset -> list string).
  Hypothesis Hkb : kbd_ok kb.
  Hypothesis Hord : forall m, Permutation (ord m) (elems m).
  Definition upluses (t : text) : list string := map (fun c => ("U+" ++ hex4 c)%string) t.
  Definition exact_rule (x : bset * string * cell) (r : krule) : Prop :=
    exists t mc bc, snd x = CText t /\ Forall2 (has_keyman kb) (ord (fst (fst x))) mc /\ has_keyman kb (snd (fst x)) bc /\ r = mkK (mc ++ [bc]) (upluses t).
  Definition covers (xs : list (bset * string * cell)) (w : written) : Prop :=
    exists k rs, fst w = flat_map kruleText rs /\ Forall2 exact_rule (firstn k xs) rs /\
      ((snd w = None /\ k = List.length xs) \/ (snd w = Some TypeError /\ exists m b, nth_error xs k = Some (m, b, COther))).
  Lemma covers_app xs ys t w : covers xs (t, None) -> covers ys w -> covers (xs ++ ys) (t ++ fst w, snd w).
  Proof.
    intros (k & rs & E & F & H) (k' & rs' & E' & F' & H'). cbn [fst snd] in *. destruct H as [[_ ->]|[H _]]; [|discriminate H].
    exists (List.length xs + k'), (rs ++ rs'). cbn [fst snd]. rewrite flat_map_app, <- E, E'. split; [reflexivity|].
    rewrite firstn_app_2. rewrite firstn_all in F. split; [apply Forall2_app; assumption|].
    rewrite app_length. destruct H' as [[H' ->]|(H' & m & b & N)]; [left; auto|right]. split; [exact H'|]. exists m, b.
    rewrite nth_error_app2 by lia. rewrite <- N. f_equal. lia.
  Qed.
  Lemma covers_stop xs ys t e : covers xs (t, Some e) -> covers (xs ++ ys) (t, Some e).
  Proof.
    intros (k & rs & E & F & H). cbn [fst snd] in *. destruct H as [[H _]|(H & m & b & N)]; [discriminate H|]. 
    assert (L : k < List.length xs) by (apply nth_error_Some; congruence).
    exists k, rs. cbn [fst snd]. split; [exact E|]. rewrite firstn_app. replace (k - List.length xs) with 0 by lia. rewrite app_nil_r. split; [exact F|].
    right. split; [exact H|]. exists m, b. rewrite nth_error_app1 by exact L. exact N.
  Qed.
  Lemma covers_emit {A} (f : A -> written) (g : A -> list (bset * string * cell)) l : (forall a, In a l -> covers (g a) (f a)) -> covers (flat_map g l) (emit f l).
  Proof.
    induction l as [|a l IH]; intros H; cbn [flat_map emit]; [exists 0, []; repeat split; [constructor|left; auto]|].
    pose proof (H a (or_introl eq_refl)) as Ha. destruct (f a) as [t [e|]]; [apply covers_stop, Ha|].
    specialize (IH (fun b I => H b (or_intror I))). destruct (emit f l) as [t' e']. exact (covers_app _ _ t (t', e') Ha IH).
  Qed.
  Lemma kcodes_Ok ms : (forall b, In b ms -> In b (map kb_name (keys kb))) -> exists mc, mapM (kcode kb) ms = Ok mc.
  Proof.
    induction ms as [|b ms IH]; intros H; cbn [mapM]; [eauto|]. destruct (@kcode_Ok kb Hkb b (H b (or_introl eq_refl))) as [c ->]. cbn [bind].
    destruct (IH (fun b' I => H b' (or_intror I))) as [mc ->]. cbn [bind]. eauto.
  Qed.
  Lemma kwarn_Ok ms : (forall b, In b ms -> In b (map kb_name (keys kb))) -> exists w, kwarn kb ms = Ok w.
  Proof.
    induction ms as [|b ms IH]; intros H; cbn [kwarn]; [eauto|]. destruct (@kcode_Ok kb Hkb b (H b (or_introl eq_refl))) as [c ->]. cbn [bind].
    destruct (kunsupported c); [eauto|]. apply IH. intros b' I. exact (H b' (or_intror I)).
  Qed.
  Lemma covers_file ls : mods_on kb ls -> cells_on kb ls ->
    covers (typed ls) (emit (fun l => emit (kmodText kb ord l) (lmods l)) ls).
  Proof.
    intros Hm Hc. unfold typed. apply covers_emit. intros l Il. apply covers_emit. intros m Im.
    assert (On : forall b, In b (ord m) -> In b (map kb_name (keys kb))).
    { intros b I. apply (Hm l m b Il Im). eapply Permutation_in; [apply Hord|exact I]. }
    unfold kmodText. destruct (kwarn_Ok (ord m) On) as [w ->].
    replace (map (fun bc : string * cell => (m, fst bc, snd bc)) (llayout l)) with (flat_map (fun bc : string * cell => [(m, fst bc, snd bc)]) (llayout l))
      by (induction (llayout l) as [|x q IH]; [reflexivity|]; cbn [flat_map map app]; now rewrite IH).
    apply covers_emit. intros [b c] Ib. unfold kcellText, krule_of. destruct (kcodes_Ok (ord m) On) as [mc Emc]. rewrite Emc. cbn [bind fst snd].
    destruct (@kcode_Ok kb Hkb b (Hc l b c Il Ib)) as [bc Ebc]. rewrite Ebc. cbn [bind]. destruct c as [t|].
    - exists 1, [mkK (mc ++ [bc]) (upluses t)]. cbn [fst snd flat_map firstn List.length]. rewrite app_nil_r. split; [reflexivity|]. split; [|left; auto].
      constructor; [|constructor]. exists t, mc, bc. cbn [fst snd]. split; [reflexivity|]. split; [exact (@mapM_kcode kb Hkb _ _ Emc)|]. split; [apply kcode_spec; assumption|reflexivity].
    - exists 0, []. cbn [fst snd flat_map firstn nth_error]. split; [reflexivity|]. split; [constructor|]. right. split; [reflexivity|]. exists m, b. reflexivity.
  Qed.
  Hypothesis Hcodes : forall k, In k (keys kb) -> code_ok (kb_keyman k).
  Lemma codes_ok bs mc : Forall2 (has_keyman kb) bs mc -> Forall code_ok mc.
  Proof. induction 1 as [|b c bs mc (k & I & _ & <-) _ IH]; constructor; auto. Qed.
  Lemma rules_read ls k rs : all_written ls -> Forall2 exact_rule (firstn k (typed ls)) rs ->
    exists ss, Forall2 (rule_does kb) (firstn k (typed ls)) ss /\ all_of kread_line (map kruleLine rs) = Some (map (fun s => [s]) ss) /\ Forall (free is_nl) (map kruleLine rs).
  Proof.
    intros T F. assert (G : forall x, In x (firstn k (typed ls)) -> In x (typed ls)) by (intros x I; rewrite <- (firstn_skipn k (typed ls)); apply in_app_iff; auto).
    induction F as [|x r xs rs (t & mc & bc & Ex & Fm & Hb & ->) F IH]; [exists []; repeat split; constructor|].
    destruct IH as (ss & Fs & R & N); [intros y I; apply G; right; exact I|]. exists (Rule (map lit (mc ++ [bc])) t :: ss).
    assert (Ht : t <> [] /\ Forall (fun c => (c < 0x110000)%N) t).
    { pose proof (G x (or_introl eq_refl)) as I. unfold typed in I. apply in_flat_map in I as (l & Il & I). apply in_flat_map in I as (m & Im & I).
      apply in_map_iff in I as ([b c] & <- & I). cbn [snd fst] in *. subst c. exact (T l b t Il I). }
    assert (Hc : Forall code_ok (mc ++ [bc])).
    { apply Forall_app. split; [exact (codes_ok _ _ Fm)|]. apply (codes_ok [snd (fst x)]). constructor; [exact Hb|constructor]. }
    split; [constructor; [|exact Fs]|split].
    - exists t, (ord (fst (fst x))), mc, bc. split; [exact Ex|]. split; [apply Hord|]. auto.
    - cbn [map all_of]. unfold upluses. rewrite (krule_read (mc ++ [bc]) t); [rewrite R; reflexivity|destruct mc; discriminate|exact Hc|apply Ht|apply Ht].
    - cbn [map]. constructor; [|exact N]. unfold kruleLine. cbn [kkeys kout]. apply free_app; [apply lit_free; reflexivity|]. apply free_app.
      + apply free_join; [apply lit_free; reflexivity|]. clear - Hc. induction Hc as [|c l H _ IH]; cbn [map]; constructor; [apply code_wordy, H|exact IH].
      + apply free_app; [apply lit_free; reflexivity|]. apply free_join; [apply lit_free; reflexivity|]. unfold upluses. rewrite map_map. clear.
        induction t as [|c t IH]; cbn [map]; constructor; [apply U_wordy|exact IH].
  Qed.
  Lemma keyman_read name now ls t e : ~ In 10%N name -> ~ In 34%N name -> ~ In 92%N name -> ~ In 10%N now -> ~ In 92%N now ->
    mods_on kb ls -> cells_on kb ls -> all_written ls -> keymanFile name now kb ord (layout_new ls) = (t, e) ->
    exists k ss, kread t = Some (kstores name ++ ss) /\ Forall2 (rule_does kb) (firstn k (typed ls)) ss /\
      ((e = None /\ k = List.length (typed ls)) \/ (e = Some TypeError /\ exists m b, nth_error (typed ls) k = Some (m, b, COther))).
  Proof.
    intros N1 N2 N3 W1 W2 Hm Hc T E. unfold keymanFile in E. rewrite layout_new_layers in E. pose proof (covers_file ls Hm Hc) as (k & rs & Er & F & H).
    destruct (emit _ ls) as [t' e']. cbn [fst snd] in *. assert (t = keymanHead name now ++ t') by congruence. assert (e = e') by congruence. clear E. subst t e. destruct (rules_read ls k rs T F) as (ss & Fs & R & Nl). exists k, ss.
    split; [|split; [exact Fs|exact H]]. destruct (khead_read name now N2 (no_bs_free name N3) (no_bs_free now W2)) as (hs & Hh & Ch).
    assert (X : keymanHead name now ++ t' = ltext (kheadLines name now ++ map kruleLine rs)).
    { rewrite ltext_app, khead_lines, Er. f_equal. clear. induction rs as [|r rs IH]; [reflexivity|]. cbn [flat_map map ltext]. rewrite IH, krule_line. cbn [ltext flat_map]. rewrite app_nil_r. reflexivity. }
    rewrite X. unfold kread. rewrite lines_ltext.
    - rewrite (all_of_app kread_line _ [[]] (hs ++ map (fun s => [s]) ss) [[]]); [|apply all_of_app; assumption|reflexivity].
      cbn [option_map]. rewrite !concat_app, Ch. cbn [concat app]. rewrite !app_nil_r. f_equal. f_equal. clear. induction ss as [|s ss IH]; [reflexivity|]. cbn [map concat app]. now rewrite IH.
    - apply Forall_app. split; [|exact Nl]. assert (Q : free is_nl quote) by (intros c [<-|[]]; reflexivity).
      unfold kheadLines. repeat (constructor; [repeat (apply free_app); first [exact Q|apply lit_free; reflexivity|apply free_nl; assumption|intros c []]|]). constructor.
  Qed.
End File.
