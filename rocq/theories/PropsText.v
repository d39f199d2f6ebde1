(** C41-C48: corpus filters. *)
From Coq Require Import Sorting.Sorted.
From Verif Require Import Base TextModel FilterModel FilterSpec FilterProofs FilterBrotli FilterHtml FilterXml.
Open Scope string_scope.
Open Scope list_scope.

(** * C41 *)
Theorem C41_charwise m t :
  charwise (fun c p => dget m c = Some p \/ (dget m c = None /\ p = [c])) t (mapChars m t).
Proof. apply mapChars_charwise. Qed.
Theorem C41_context m t u : mapChars m (t ++ u) = mapChars m t ++ mapChars m u.
Proof. apply mapChars_app. Qed.
Theorem C41_normal t : (forall c, In c (mapChars charMap t) -> ~ In c (map fst charMap)) /\
  mapChars charMap (mapChars charMap t) = mapChars charMap t.
Proof.
  assert (K : forall c, In c (mapChars charMap t) -> dget charMap c = None) by (apply mapChars_closed; exact charMap_closed). split.
  - intros c H I. apply K in H. assert (B : forallb (fun k => match dget charMap k with Some _ => true | None => false end) (map fst charMap) = true)
      by (vm_compute; reflexivity). rewrite forallb_forall in B. specialize (B c I). rewrite H in B. discriminate.
  - apply mapChars_id, K.
Qed.
(** What becomes of each character. *)
Theorem C41_table t : mapChars charMap t = flat_map arabic t.
Proof.
  unfold mapChars. apply flat_map_ext. intros c. destruct (dget charMap c) as [y|] eqn:E.
  - assert (B : forallb (fun kv => eqb (snd kv) (arabic (fst kv))) charMap = true) by (vm_compute; reflexivity).
    rewrite forallb_forall in B. apply dget_In in E. specialize (B _ E). apply (proj1 (eqb_eq _ _)) in B. exact B.
  - assert (K : forall k, In k (map fst charMap) -> c <> k).
    { intros k Hk ->. apply dget_None in E. exact (E Hk). }
    assert (D : ((0x30 <=? c) && (c <=? 0x39))%N = false).
    { destruct ((0x30 <=? c) && (c <=? 0x39))%N eqn:X; [|reflexivity]. apply Bool.andb_true_iff in X. destruct X as [X1 X2].
      apply N.leb_le in X1, X2. exfalso.
      assert (C : (c = 0x30 \/ c = 0x31 \/ c = 0x32 \/ c = 0x33 \/ c = 0x34 \/ c = 0x35 \/ c = 0x36 \/ c = 0x37 \/ c = 0x38 \/ c = 0x39)%N) by lia.
      revert C. assert (M : forall k, mem k (map fst charMap) = true -> c <> k) by (intros k Hk; apply K, mem_In, Hk).
      intuition (eapply M; [|eassumption]; reflexivity). }
    assert (M : forall k, mem k (map fst charMap) = true -> (c =? k)%N = false) by (intros k Hk; apply N.eqb_neq, K, mem_In, Hk).
    unfold arabic, hamza_letter, lam_alef, western. rewrite D. rewrite !M by reflexivity. reflexivity.
Qed.
Example C41_example : mapChars charMap [0x31; 0x61; 0xFEF9]%N = [0x661; 0x61; 0x644; 0x627; 0x655]%N.
Proof. reflexivity. Qed.

(** * C42 *)
Theorem C42_crlf_refuted : exists t, contains [CR; LF] (prepare t).
Proof. exists [CR; CR; LF]. exists [], []. reflexivity. Qed.
Theorem C42_crlf_partial t : contains [CR; LF] (prepare t) <-> contains [CR; CR; LF] t.
Proof. apply prepare_crlf. Qed.
(** Every CR LF is replaced and nothing else changes. *)
Theorem C42_lines t : exists ps, Forall (fun p => ~ contains [CR; LF] p) ps /\
  t = joinL [CR; LF] ps /\ replace_crlf t = joinL [LF] ps.
Proof. destruct (crlf_pieces t) as (ps & _ & H). eauto. Qed.
Example C42_example : prepare [0x61; CR; LF; CR; 0x62; LF; CR; LF]%N = [0x61; LF; CR; 0x62; LF; LF]%N.
Proof. reflexivity. Qed.

(** * C43 *)
Theorem C43_items {A} (fs : list (A -> gen A)) l e :
  apply_gen fs (l, e) = gchain (fun x => apply_gen fs ([x], None)) l e.
Proof. apply apply_items. Qed.
Theorem C43_concat {A} (fs : list (A -> gen A)) l1 l2 :
  snd (apply_gen fs (l1, None)) = None ->
  apply_gen fs (l1 ++ l2, None) =
    (fst (apply_gen fs (l1, None)) ++ fst (apply_gen fs (l2, None)), snd (apply_gen fs (l2, None))).
Proof.
  rewrite !(apply_items fs l1), !(apply_items fs l2), !(apply_items fs (l1 ++ l2)). intros H. rewrite gchain_app.
  destruct (gchain _ l1 None) as [ys e]. cbn [snd] in H. subst e. reflexivity.
Qed.
(** The first item that fails ends everything; what came before is kept. *)
Theorem C43_error {A} (fs : list (A -> gen A)) l1 x l2 ex :
  snd (apply_gen fs (l1, None)) = None -> snd (apply_gen fs ([x], None)) = Some ex ->
  apply_gen fs (l1 ++ x :: l2, None) = (fst (apply_gen fs (l1, None)) ++ fst (apply_gen fs ([x], None)), Some ex).
Proof.
  intros H1 H2. rewrite (apply_items fs (l1 ++ x :: l2)), gchain_app. rewrite (apply_items fs l1) in *.
  destruct (gchain _ l1 None) as [ys e]. cbn [snd fst] in *. subst e. cbn [gchain].
  destruct (apply_gen fs ([x], None)) as [zs e]. cbn [snd fst] in *. subst e. reflexivity.
Qed.
Theorem C43_compose {A} (fs gs : list (A -> gen A)) g : apply_gen (fs ++ gs) g = apply_gen gs (apply_gen fs g).
Proof. apply apply_app. Qed.
Theorem C43_paths {A} (fs : list (A -> gen A)) l :
  (forall y, In y (fst (apply_gen fs (l, None))) -> exists x, In x l /\ path fs x y) /\
  (snd (apply_gen fs (l, None)) = None -> forall x y, In x l -> path fs x y -> In y (fst (apply_gen fs (l, None)))).
Proof.
  split.
  - intros y H. destruct (apply_sound H) as (x & Hx & P). eauto.
  - intros H. exact (proj2 (apply_complete H)).
Qed.
(** The strict chain used in the pipeline model *)
Theorem C43_strict {A} (fs : list (A -> list A)) l :
  apply_gen (map (fun f x => (f x, None)) fs) (l, None) = (apply_filters fs l, None).
Proof. apply apply_total. Qed.
Definition ex_dup (x : nat) : gen nat := ([x; x + 1], None).
Definition ex_fail (x : nat) : gen nat := if Nat.eqb x 4 then ([x], Some ValueError) else ([x * 10], None).
Example C43_example : apply_gen [ex_dup; ex_fail] ([1; 3; 5], None) = ([10; 20; 30; 4], Some ValueError) /\
  apply_gen [ex_dup; ex_fail] ([1; 5], None) = ([10; 20; 50; 60], None).
Proof. split; reflexivity. Qed.

(** * C44 *)
Theorem C44_members int8 ms r fuel : reads_octal int8 -> Forall member_ok ms -> archive_end r ->
  List.length (archive ms ++ r) < fuel -> filterTar int8 fuel (archive ms ++ r) = (contents ms, None).
Proof.
  intros Hi F He L. assert (Hl : List.length ms <= List.length (archive ms)).
  { clear -F. induction F as [|m ms ((Hh & _) & _) F IH]; [cbn; lia|]. unfold archive in *. cbn [flat_map List.length].
    rewrite app_length. assert (512 <= List.length (bytes m)) by (unfold bytes; rewrite app_length, Hh; lia). lia. }
  rewrite app_length in L. unfold filterTar. replace fuel with (List.length ms + S (fuel - S (List.length ms))) by lia.
  destruct (tar_members Hi F (S (fuel - S (List.length ms))) (pos:=0) r) as (p' & _ & E); [reflexivity|].
  rewrite E, (tar_end _ _ _ He). cbn [fst snd]. rewrite app_nil_r. reflexivity.
Qed.
(** A block that is no header *)
Theorem C44_magic int8 ms r fuel : reads_octal int8 -> Forall member_ok ms ->
  r <> [] -> firstn 512 r <> zeros -> ~ field_at (firstn 512 r) 256 gnu_magic -> List.length ms < fuel ->
  filterTar int8 fuel (archive ms ++ r) = (contents ms, Some AssertionError).
Proof.
  intros Hi F N1 N2 N3 L. unfold filterTar. replace fuel with (List.length ms + S (fuel - S (List.length ms))) by lia.
  destruct (tar_members Hi F (S (fuel - S (List.length ms))) (pos:=0) r) as (p' & _ & E); [reflexivity|].
  rewrite E, (tar_bad _ _ _ N1 N2 (fun K => N3 (@slice_field N (firstn 512 r) gnu_magic 256 8 ltac:(cbn; lia) eq_refl K))). cbn [fst snd]. rewrite app_nil_r. reflexivity.
Qed.
(** A file that ends within a member: what is there is yielded, without error. *)
Theorem C44_truncated int8 ms h n d fuel : reads_octal int8 -> Forall member_ok ms -> header_for h n ->
  List.length d <= n -> 0 < n -> List.length ms + 1 < fuel ->
  filterTar int8 fuel (archive ms ++ h ++ d) = (contents ms ++ [d], None).
Proof.
  intros Hi F Hh Ld Ln L. unfold filterTar. replace fuel with (List.length ms + S (S (fuel - S (S (List.length ms))))) by lia.
  set (k := fuel - S (S (List.length ms))).
  destruct (tar_members Hi F (S (S k)) (pos:=0) (h ++ d)) as (p' & Hp & E); [reflexivity|].
  rewrite E. rewrite (tar_header Hi _ _ Hh Hp). destruct (Nat.eqb_spec n 0); [lia|]. rewrite firstn_all2 by lia. rewrite (@skipn_all2 N n d) by lia. cbv zeta iota.
  rewrite skipn_nil. set (m := Nat.modulo n 512).
  assert (E2 : forall pos, tar_loop int8 (S k) pos (if Nat.eqb m 0 then [] else []) = ([], None)).
  { intros pos. destruct (Nat.eqb m 0); apply tar_end; left; reflexivity. }
  rewrite E2. reflexivity.
Qed.
Theorem C44_terminates int8 fd fuel : (forall l, int8 l <> Raise OutOfFuel) -> List.length fd < fuel ->
  snd (filterTar int8 fuel fd) <> Some OutOfFuel.
Proof. intros H L. apply tar_terminates; assumption. Qed.
(** An archive of three members, one of them empty.  *)
Definition ex_int8 (l : list N) : res Z :=
  if negb (Nat.eqb (List.length l) 0) && forallb (fun c => (48 <=? c)%N && (c <=? 55)%N) l
  then Ok (fold_left (fun z c => (8 * z + Z.of_N c - 48)%Z) l 0%Z) else Raise ValueError.
Definition ex_header (size : list N) : list N :=
  repeat 97%N 124 ++ size ++ repeat 0%N (12 - List.length size) ++ repeat 98%N 120 ++ gnu_magic ++ repeat 99%N 248.
Definition ex_members : list member :=
  [mkMember (ex_header [51]%N) [1; 2; 3]%N (repeat 0%N 509); mkMember (ex_header [48; 48]%N) [] [];
   mkMember (ex_header [48; 49; 48]%N) [7; 7; 7; 7; 7; 7; 7; 7]%N (repeat 5%N 504)].
Lemma ex_int8_octal : reads_octal ex_int8.
Proof.
  intros ds Ne F. unfold ex_int8. destruct ds as [|c ds]; [congruence|]. cbn [List.length Nat.eqb negb andb].
  assert (E : forallb (fun c => (48 <=? c)%N && (c <=? 55)%N) (c :: ds) = true).
  { apply forallb_forall. intros x Hx. rewrite Forall_forall in F. specialize (F x Hx). unfold octal_digit in F. lia. }
  rewrite E. reflexivity.
Qed.
Lemma ex_header_for size n : List.length size <= 12 -> size <> [] -> Forall octal_digit size -> octal size = Z.of_nat n -> header_for (ex_header size) n.
Proof.
  intros L N F V. split; [|split].
  - unfold ex_header. rewrite !app_length, !repeat_length. change (List.length gnu_magic) with 8. lia.
  - exists (repeat 97%N 124 ++ size ++ repeat 0%N (12 - List.length size) ++ repeat 98%N 120), (repeat 99%N 248). split; [unfold ex_header; now rewrite <- !app_assoc|].
    rewrite !app_length, !repeat_length. lia.
  - exists size, (12 - List.length size). split; [|split; [lia|auto]]. exists (repeat 97%N 124), (repeat 98%N 120 ++ gnu_magic ++ repeat 99%N 248).
    split; [unfold ex_header; now rewrite <- !app_assoc|apply repeat_length].
Qed.
Lemma ex_members_ok : Forall member_ok ex_members.
Proof.
  repeat (constructor; [split; [apply ex_header_for; [cbn; lia|discriminate|repeat constructor; unfold octal_digit; lia|reflexivity]|split; cbn; lia]|]). constructor.
Qed.
Example C44_example : filterTar ex_int8 4000 (archive ex_members ++ zeros ++ [1; 2]%N) = ([[1; 2; 3]%N; [7; 7; 7; 7; 7; 7; 7; 7]%N], None).
Proof.
  apply C44_members; [exact ex_int8_octal|exact ex_members_ok|right; eexists; reflexivity|].
  apply Nat.ltb_lt. vm_compute. reflexivity.
Qed.

(** * C45 *)
Theorem C45_reads {D} process finished (d0 : D) comp out chunk ns fuel :
  decodes_to process finished d0 comp true out -> 0 < chunk -> List.length comp < fuel ->
  brotli_reads process finished chunk fuel (map (option_map Z.of_nat) ns) (mkBF d0 [] comp) = Ok (cut ns (out comp)).
Proof.
  intros (R & H1 & H2 & H3 & H4 & H5) Hc L.
  eapply (reads_ok Hc d0 H3 H4 H5) with (del := []); [reflexivity|reflexivity| |exact L]. apply binv0; assumption.
Qed.
(** The pieces are consecutive. *)
Theorem C45_consecutive ns data : exists rest, concat (cut ns data) ++ rest = data.
Proof.
  revert data. induction ns as [|[n|] ns IH]; intros data; cbn [cut concat]; [exists data; reflexivity| |].
  - destruct (IH (skipn n data)) as [rest E]. exists rest. rewrite <- app_assoc, E, firstn_skipn. reflexivity.
  - destruct (IH []) as [rest E]. exists rest. rewrite <- app_assoc, E, app_nil_r. reflexivity.
Qed.
(** A truncated stream: what was produced can be read, ... *)
Theorem C45_truncated_prefix {D} process finished (d0 : D) comp fin out chunk ns fuel :
  decodes_to process finished d0 comp fin out -> 0 < chunk -> List.length comp < fuel ->
  fold_right Nat.add 0 ns <= List.length (out comp) ->
  brotli_reads process finished chunk fuel (map (fun n => Some (Z.of_nat n)) ns) (mkBF d0 [] comp) = Ok (cut (map Some ns) (out comp)).
Proof.
  intros (R & H1 & H2 & H3 & H4 & H5) Hc L Hs.
  eapply (reads_prefix Hc d0 H3 H4 H5) with (del := []); [reflexivity|exact Hs| |exact L]. apply binv0; assumption.
Qed.
(** ... but reading more, or all, never returns. *)
Theorem C45_truncated_hangs {D} process finished (d0 : D) comp out chunk num fuel :
  decodes_to process finished d0 comp false out -> 0 < chunk ->
  match num with Some n => (Z.of_nat (List.length (out comp)) < n)%Z | None => True end ->
  brotli_read process finished chunk fuel num (mkBF d0 [] comp) = Raise OutOfFuel.
Proof.
  intros (R & H1 & H2 & H3 & H4 & H5) Hc Hn. unfold brotli_read.
  erewrite (fill_hangs Hc d0 H3 H4 H5) with (del := []); [reflexivity|reflexivity|reflexivity|exact Hn|]. apply binv0; assumption.
Qed.
(** read(-1) does not read everything, as it does for files. *)
Theorem C45_negative {D} process finished (d : D) chunk fuel buf fd :
  brotli_read process finished chunk (S fuel) (Some (-1)%Z) (mkBF d buf fd) =
  Ok (firstn (List.length buf - 1) buf, mkBF d (skipn (List.length buf - 1) buf) fd).
Proof. rewrite (read_negative process finished chunk fuel (n:=(-1)%Z)) by lia. reflexivity. Qed.
(** Example: run lengths, ended by a zero *)
Inductive rl := RLStart | RLCount (n : N) | RLDone.
Fixpoint rl_run (d : rl) (l : list N) : rl * list N :=
  match l with
  | [] => (d, [])
  | c :: l' =>
      match d with
      | RLStart => if N.eqb c 0 then (RLDone, []) else rl_run (RLCount c) l'
      | RLCount n => let (d', o) := rl_run RLStart l' in (d', repeat c (N.to_nat n) ++ o)
      | RLDone => (RLDone, [])
      end
  end.
Definition rl_process (d : rl) (l : list N) : res (rl * list N) := match d with RLDone => Raise ValueError | _ => Ok (rl_run d l) end.
Definition rl_finished (d : rl) : bool := match d with RLDone => true | _ => false end.
Definition ex_comp : list N := [3; 65; 2; 66; 0]%N.
Lemma rl_run_app l m : forall d, fst (rl_run d l) <> RLDone ->
  rl_run d (l ++ m) = (fst (rl_run (fst (rl_run d l)) m), snd (rl_run d l) ++ snd (rl_run (fst (rl_run d l)) m)).
Proof.
  induction l as [|c l IH]; intros d H; cbn [app rl_run].
  - cbn [rl_run fst snd app]. destruct (rl_run d m); reflexivity.
  - destruct d as [|n|]; cbn [rl_run] in *.
    + destruct (N.eqb c 0); [exfalso; apply H; reflexivity|]. apply IH, H.
    + destruct (rl_run RLStart l) as [d' o] eqn:E. cbn [fst snd] in *. rewrite IH by (rewrite E; exact H). rewrite E. cbn [fst snd].
      rewrite app_assoc. reflexivity.
    + exfalso; apply H; reflexivity.
Qed.
Lemma prefix_cases {A} (p r l : list A) : l = p ++ r -> exists k, k <= List.length l /\ p = firstn k l.
Proof.
  intros ->. exists (List.length p). rewrite app_length. split; [lia|]. rewrite firstn_app, Nat.sub_diag, firstn_all, app_nil_r. reflexivity.
Qed.
Lemma ex_decodes comp : (forall k, k <= List.length comp -> rl_finished (fst (rl_run RLStart (firstn k comp))) = true -> k = List.length comp) ->
  decodes_to rl_process rl_finished RLStart comp (rl_finished (fst (rl_run RLStart comp))) (fun p => snd (rl_run RLStart p)).
Proof.
  intros Hk. exists (fun d p => d = fst (rl_run RLStart p) /\ exists r, comp = p ++ r). split; [split; [reflexivity|exists comp; reflexivity]|].
  split; [reflexivity|]. split; [|split].
  - intros d p [-> [r E]] F. destruct (prefix_cases _ _ _ E) as (k & Lk & Ep). rewrite Ep in F. rewrite Ep, (Hk k Lk F). apply firstn_all.
  - intros d [-> _]. reflexivity.
  - intros d p q r [-> _] F E _.
    assert (Nd : fst (rl_run RLStart p) <> RLDone) by (intros K; rewrite K in F; discriminate).
    exists (fst (rl_run (fst (rl_run RLStart p)) q)), (snd (rl_run (fst (rl_run RLStart p)) q)). split; [|split].
    + unfold rl_process. rewrite <- surjective_pairing. destruct (fst (rl_run RLStart p)); [reflexivity|reflexivity|congruence].
    + rewrite (rl_run_app p q _ Nd). split; [reflexivity|]. exists r. rewrite E, app_assoc. reflexivity.
    + rewrite (rl_run_app p q _ Nd). reflexivity.
Qed.
Example C45_example : decodes_to rl_process rl_finished RLStart ex_comp true (fun p => snd (rl_run RLStart p)) /\
  decodes_to rl_process rl_finished RLStart (firstn 4 ex_comp) false (fun p => snd (rl_run RLStart p)) /\
  brotli_reads rl_process rl_finished 2 10 [Some 2%Z; Some 0%Z; None; Some 1%Z] (mkBF RLStart [] ex_comp) =
    Ok [[65; 65]; []; [65; 66; 66]; []]%N.
Proof.
  split; [|split; [|reflexivity]].
  - apply (ex_decodes ex_comp). intros k L. do 6 (destruct k as [|k]; [try reflexivity; discriminate|]). cbn in L. lia.
  - apply (ex_decodes (firstn 4 ex_comp)). intros k L. do 5 (destruct k as [|k]; [discriminate|]). cbn in L. lia.
Qed.

(** * C46 *)
(** What is yielded for any document, whatever is selected *)
Theorem C46_exact f doc : Forall (flat_scripts f) doc ->
  select f (None, None) (flat_map toks doc) = fst (emit_all f false doc).
Proof. apply select_exact. Qed.
Theorem C46_select_partial f doc : Forall (flat_scripts f) doc -> Forall (unnested f) doc ->
  select f (None, None) (flat_map toks doc) = flat_map toks (flat_map (wanted f) doc).
Proof. apply select_wanted. Qed.
(** Nothing is invented or reordered. *)
Theorem C46_sublist f ts : sublist (select f (None, None) ts) ts.
Proof. apply select_sub. Qed.
Definition ex_id : attrs := [("id", "DynamicContentContainer")].
Theorem C46_select_refuted : exists doc, Forall (flat_scripts sel_aljazeera) doc /\
  select sel_aljazeera (None, None) (flat_map toks doc) <> flat_map toks (flat_map (wanted sel_aljazeera) doc).
Proof.
  exists [Elem "div" ex_id [Elem "div" ex_id [Chars [97%N]]; Chars [98%N]]]. split; [|vm_compute; discriminate].
  repeat constructor; discriminate.
Qed.
(** Elements in a script end it too early, ... *)
Theorem C46_needs_flat : exists doc, Forall (unnested sel_aljazeera) doc /\
  select sel_aljazeera (None, None) (flat_map toks doc) <> flat_map toks (flat_map (wanted sel_aljazeera) doc).
Proof.
  exists [Elem "div" ex_id [Elem "script" [] [Elem "b" [] []; Chars [97%N]]]]. split; [|vm_compute; discriminate].
  repeat constructor; vm_compute; auto.
Qed.
(** ... and after a selected script the next token comes out. *)
Theorem C46_selected_script t : select (fun name _ => is_script name) (None, None) (toks (Elem "script" [] []) ++ [Characters t; Characters t]) =
  [Characters t].
Proof. reflexivity. Qed.
(** What the shipped selectors select: [div] elements with one attribute *)
Theorem C46_selectors name d :
  (sel_aljazeera name d = true <-> name = "div" /\ exists v, dget d "id" = Some v /\ v = "DynamicContentContainer") /\
  (sel_bbcarabic name d = true <-> name = "div" /\ exists v, dget d "property" = Some v /\ v = "articleBody").
Proof.
  unfold sel_aljazeera, sel_bbcarabic. rewrite !andb_true_iff, !eqb_eq. split; (split; intros [-> H]; (split; [reflexivity|])); try (eexists; split; [exact H|reflexivity]);
    destruct H as (v & -> & ->); reflexivity.
Qed.
(** The shipped selectors never select a script. *)
Theorem C46_shipped name d : code_elem name = true -> sel_aljazeera name d = false /\ sel_bbcarabic name d = false.
Proof.
  unfold sel_aljazeera, sel_bbcarabic. intros H.
  destruct (eqb_spec name "div") as [->|]; [discriminate|]. split; reflexivity.
Qed.
Definition ex_doc : list node :=
  [Elem "html" [] [Elem "body" [] [Chars [120%N]; Elem "div" ex_id
     [Elem "script" [] [Chars [121%N]]; Elem "p" [] [Chars [97%N]; Spaces [9%N]; Void "br" []; Chars [98%N]]; Cmt [122%N]]; Chars [120%N]]]].
Example C46_example : Forall (flat_scripts sel_aljazeera) ex_doc /\ Forall (unnested sel_aljazeera) ex_doc /\
  flat_map (wanted sel_aljazeera) ex_doc =
    [Elem "div" ex_id [Elem "p" [] [Chars [97%N]; Spaces [9%N]; Void "br" []; Chars [98%N]]; Cmt [122%N]]].
Proof. repeat split; repeat constructor; try discriminate; vm_compute; auto. Qed.

(** * C47 *)
Theorem C47_serialize entities doc : exists ys, serialize entities (flat_map toks doc) = (ys, None) /\
  concat ys = flat_map prose doc.
Proof. apply gives_doc. Qed.
(** From the parsed document to the text *)
Theorem C47_filterHtml entities f doc : Forall (flat_scripts f) doc -> Forall (unnested f) doc ->
  filterHtml entities f (flat_map toks doc) = ([flat_map prose (flat_map (wanted f) doc)], None).
Proof.
  intros Fl Un. unfold filterHtml. rewrite (select_wanted Fl Un).
  destruct (gives_doc entities (flat_map (wanted f) doc)) as (ys & E & <-). rewrite E. reflexivity.
Qed.
(** Entities outside the table and unknown tokens raise after what came before. *)
Theorem C47_errors entities doc t ts : t = OtherToken \/ (exists n, t = Entity n /\ entities n = None) ->
  serialize entities (flat_map toks doc ++ t :: ts) =
    (fst (serialize entities (flat_map toks doc)),
     Some (match t with Entity _ => AttributeError | _ => AssertionError end)).
Proof.
  intros H. assert (E : snd (serialize1 entities t) = Some (match t with Entity _ => AttributeError | _ => AssertionError end)).
  { destruct H as [->|(n & -> & E)]; [reflexivity|]. cbn. rewrite E. reflexivity. }
  rewrite serialize_bad by (rewrite E; discriminate). rewrite E. reflexivity.
Qed.
(** The document is yielded completely or not at all: an entity or token that
    cannot be written, where it would have been yielded, spoils all of it. *)
Definition writable (entities : text -> option text) (t : token) : bool :=
  match t with OtherToken => false | Entity n => match entities n with Some _ => true | None => false end | _ => true end.
Theorem C47_all_or_nothing entities f ts :
  if forallb (writable entities) (select f (None, None) ts) then exists t, filterHtml entities f ts = ([t], None)
  else exists e, filterHtml entities f ts = ([], Some e).
Proof.
  unfold filterHtml. generalize (select f (None, None) ts). clear ts. intros ts.
  assert (G : snd (serialize entities ts) = None <-> forallb (writable entities) ts = true).
  { unfold serialize. induction ts as [|t ts IH]; [split; reflexivity|]. cbn [forallb gchain].
    assert (W : snd (serialize1 entities t) = None <-> writable entities t = true).
    { destruct t; cbn; try (split; reflexivity); try (split; discriminate). destruct (entities name); split; try reflexivity; discriminate. }
    destruct (serialize1 entities t) as [ys [e|]] eqn:E; cbn [snd] in *.
    - destruct (writable entities t); [destruct W as [_ W]; discriminate (W eq_refl)|]. cbn. split; discriminate.
    - rewrite (proj1 W eq_refl). cbn [andb]. destruct (gchain (serialize1 entities) ts None) as [zs e']. cbn [snd] in *. exact IH. }
  destruct (serialize entities ts) as [ys [e|]]; cbn [snd] in G; destruct (forallb (writable entities) ts).
  - destruct G as [_ G]. discriminate (G eq_refl).
  - exists e. reflexivity.
  - exists (concat ys). reflexivity.
  - destruct G as [G _]. discriminate (G eq_refl).
Qed.
Example C47_example : filterHtml (fun _ => None) sel_aljazeera (flat_map toks ex_doc) = ([[97; 32; 98; 10; 10; 10; 10]%N], None).
Proof. reflexivity. Qed.

(** * C48 *)
Theorem C48_subtitles isspace doc : exists ps,
  StronglySorted before ps /\ (forall p, In p ps <-> exists cs, is_elem doc "s" p cs) /\
  exists ls, Forall2 (fun p l => trimmed isspace (text_at doc p) l) ps ls /\
    filterOpenSubtitles isspace doc = ([joinL [LF] ls], None).
Proof.
  exists (dpos "s" 0 doc). split; [apply dpos_sorted|]. split; [intros; apply dpos_In|].
  exists (map (fun cs => strip isspace (dtext cs)) (byTagName "s" doc)). split; [|reflexivity].
  pose proof (dpos_elem "s" doc) as F. induction F as [|p cs l m H F IH]; cbn; constructor; [|exact IH].
  unfold text_at. rewrite H. apply strip_trimmed.
Qed.
(** Paragraphs of bodies of texts, in document order, each with its sentences *)
Theorem C48_tei2_partial doc : not_nested doc "text" -> not_nested doc "body" -> not_nested doc "p" ->
  exists groups : list (list nat * list (list nat)),
    filterTEI2 doc = ([joinL [LF] (flat_map (fun g => map (text_at doc) (snd g) ++ [[]]) groups)], None) /\
    StronglySorted before (map fst groups) /\ (forall g, In g (map fst groups) <-> paragraph doc g) /\
    (forall g ss, In (g, ss) groups -> forall s, In s ss <-> inside g s /\ exists cs, is_elem doc "s" s cs) /\
    StronglySorted before (flat_map snd groups).
Proof.
  intros N1 N2 N3. exists (groups doc). split; [unfold filterTEI2; rewrite groups_text; reflexivity|].
  split; [exact (groups_sorted N1 N2)|]. split; [intros g; rewrite groups_fst; apply q_p_In|]. split; [|exact (sentences_sorted N1 N2 N3)].
  intros g ss H s. apply in_map_iff in H as ([p cs] & E & H). injection E as <- <-. apply sent_In. exact H.
Qed.
(** Nothing is missing in any case. *)
Theorem C48_tei2_complete doc g s : paragraph doc g -> inside g s -> (exists cs, is_elem doc "s" s cs) ->
  In (text_at doc s) (tei2_lines doc).
Proof.
  intros Hg I Hs. apply q_p_In in Hg. apply in_map_iff in Hg as ([p cs] & E & Hp). cbn in E. subst p.
  rewrite groups_text. apply in_flat_map. exists (g, sent (g, cs)). split; [apply in_map_iff; exists (g, cs); auto|].
  apply in_or_app. left. apply in_map. apply (sent_In _ Hp). auto.
Qed.
Definition ex_s (c : N) : dnode := DElem "s" [DText [c]].
Definition ex_tei (body : list dnode) : list dnode := [DElem "TEI.2" [DOther; DElem "text" [DElem "body" body]]].
Theorem C48_tei2_refuted : exists doc,
  filterTEI2 doc = ([joinL [LF] [[97%N]; [98%N]; []; [98%N]; []]], None) /\
  exists p, forall q, (exists cs, is_elem doc "s" q cs /\ dtext cs = [98%N]) -> q = p.
Proof.
  exists (ex_tei [DElem "p" [ex_s 97; DElem "p" [ex_s 98]]]). split; [reflexivity|]. exists [0; 1; 0; 0; 1; 0].
  intros q (cs & H & Ht). pose proof (dpos_complete H) as I. vm_compute in I.
  destruct I as [<-|[<-|[]]]; [|reflexivity]. vm_compute in H. injection H as <-. discriminate.
Qed.
Example C48_example :
  filterTEI2 (ex_tei [DElem "p" [ex_s 97; DElem "b" [ex_s 98]]; ex_s 99; DElem "p" []; DElem "p" [ex_s 100]]) =
    ([joinL [LF] [[97%N]; [98%N]; []; []; [100%N]; []]], None) /\
  filterOpenSubtitles (fun c => (c <=? 32)%N) [DElem "d" [DElem "s" [DText [32; 97; 32]%N; DElem "t" []; DText [98; 10]%N]; ex_s 99]] =
    ([[97; 32; 98; 10; 99]%N], None).
Proof. split; reflexivity. Qed.
Example C48_example_nested : let doc := ex_tei [DElem "p" [ex_s 97; ex_s 98]; DElem "p" [ex_s 99]] in
  not_nested doc "text" /\ not_nested doc "body" /\ not_nested doc "p".
Proof.
  cbv zeta. assert (K : forall name doc, (forall p q, In p (dpos name 0 doc) -> In q (dpos name 0 doc) -> ~ inside p q) -> not_nested doc name).
  { intros name doc H p q cs ds Hp Hq. apply H; eapply dpos_complete; eassumption. }
  split; [|split]; apply K; vm_compute dpos; intros p q Hp Hq (r & Nr & E).
  - destruct Hp as [<-|[]], Hq as [<-|[]]. injection E as <-. congruence.
  - destruct Hp as [<-|[]], Hq as [<-|[]]. injection E as <-. congruence.
  - destruct Hp as [<-|[<-|[]]], Hq as [<-|[<-|[]]]; try discriminate; injection E as <-; congruence.
Qed.
Print Assumptions C41_charwise.
Print Assumptions C41_context.
Print Assumptions C41_normal.
Print Assumptions C41_table.
Print Assumptions C42_crlf_refuted.
Print Assumptions C42_crlf_partial.
Print Assumptions C42_lines.
Print Assumptions C43_items.
Print Assumptions C43_concat.
Print Assumptions C43_error.
Print Assumptions C43_compose.
Print Assumptions C43_paths.
Print Assumptions C43_strict.
Print Assumptions C44_members.
Print Assumptions C44_magic.
Print Assumptions C44_truncated.
Print Assumptions C44_terminates.
Print Assumptions C45_reads.
Print Assumptions C45_consecutive.
Print Assumptions C45_truncated_prefix.
Print Assumptions C45_truncated_hangs.
Print Assumptions C45_negative.
Print Assumptions C46_exact.
Print Assumptions C46_select_partial.
Print Assumptions C46_sublist.
Print Assumptions C46_select_refuted.
Print Assumptions C46_needs_flat.
Print Assumptions C46_selected_script.
Print Assumptions C46_selectors.
Print Assumptions C46_shipped.
Print Assumptions C47_serialize.
Print Assumptions C47_filterHtml.
Print Assumptions C47_all_or_nothing.
Print Assumptions C47_errors.
Print Assumptions C48_subtitles.
Print Assumptions C48_tei2_partial.
Print Assumptions C48_tei2_complete.
Print Assumptions C48_tei2_refuted.
