(** Properties C11-C16 (lulua/writer.py). *)
From Verif Require Import Base LayoutModel LayoutSpec LayoutProofs DataLayouts DataFingermap ShippedProofs
  WriterModel WriterSpec WriterProofs WriterHands PropsLayout.
Open Scope string_scope.
Open Scope list_scope.

Lemma fm_small : length defaultFingermap < 128.
Proof. vm_compute. lia. Qed.
Lemma kb_fingered : incl kb_names (dkeys defaultFingermap).
Proof. apply inclb_ok. vm_compute. reflexivity. Qed.

Lemma ex_ok : layers_ok ex_layers.
Proof. apply layers_okb_ok. reflexivity. Qed.
Lemma ex_ab : assigned ex_layers [97; 98]%N.
Proof. exists "Dl2". eexists. split; [left; reflexivity|right; left; reflexivity]. Qed.
Lemma ex_fingered : fingered defaultFingermap ex_layers.
Proof. apply inclb_ok. vm_compute. reflexivity. Qed.

(** C11: typing loses no text. *)
Theorem C11_coverage fm ls last t : layers_ok ls -> (exists x, assigned ls x) ->
  exists es l, type_text fm (layout_new ls) last t = (es, Done, l) /\ concat (map ev_text es) = t.
Proof.
  intros Hok Hex. destruct (@type_coverage fm text read_full (fun t => t) ls) with (fuel := S (length t)) (r := t) (buf := @nil N) (last := last)
    as (es & l & E & Hc & _); auto using full_reads_file, read_full_ok; cbn; try lia. eauto.
Qed.
Theorem C11_null_layout fm ls last t : (forall x, ~ assigned ls x) -> type_text fm (layout_new ls) last t = ([], Done, last).
Proof.
  intros Hn. apply type_null. destruct (bufferLen_attained ls) as [E|(x & Hx & _)]; [exact E|].
  exfalso. exact (Hn x Hx).
Qed.
Example C11_example :
  layers_ok ex_layers /\ assigned ex_layers [97; 98]%N /\
  (let '(es, f, _) := type_text defaultFingermap (layout_new ex_layers) None [97; 98; 99; 97; 65]%N in
   map ev_token es = [TMatch [97; 98]; TSkip 99; TMatch [97]; TMatch [65]] /\ f = Done)%N /\
  (forall x, ~ assigned (shipped_layers data_null) x).
Proof.
  split; [apply ex_ok|]. split; [apply ex_ab|].
  split; [vm_compute; repeat split|]. intros x (b & l & Hl & Hb). vm_compute in Hl. destruct Hl.
Qed.

(** C12: greedy longest match over the whole remaining text. *)
Theorem C12_greedy fm ls last t : length fm < 128 -> layers_ok ls -> (exists x, assigned ls x) -> fingered fm ls ->
  prev_fingered fm last ->
  greedy ls t (map ev_token (fst (fst (type_text fm (layout_new ls) last t)))).
Proof.
  intros. unfold type_text. apply (@type_greedy fm text read_full (fun t => t) ls) with (buf := @nil N); auto using read_full_ok; cbn; lia.
Qed.
Theorem C12_unique ls t a b : greedy ls t a -> greedy ls t b -> a = b.
Proof. apply greedy_unique. Qed.
(** Every shipped layout with texts meets the hypotheses. *)
Theorem C12_shipped d : In d all_layouts -> layers_ok (shipped_layers d) /\ fingered defaultFingermap (shipped_layers d) /\
  length defaultFingermap < 128.
Proof.
  intros Hd. destruct (shipped_facts d Hd) as (_ & _ & H1 & H2). split; [exact H1|]. split; [|apply fm_small].
  intros x Hx. apply kb_fingered, H2, Hx.
Qed.
(** A button without a finger is reported as skipped although it is mapped. *)
Theorem C12_needs_fingers : exists fm ls t, layers_ok ls /\ (exists x, assigned ls x) /\ length fm < 128 /\
  ~ greedy ls t (map ev_token (fst (fst (type_text fm (layout_new ls) None t)))).
Proof.
  exists [], ex_layers, [97; 99]%N. split; [apply ex_ok|]. split; [exists [97; 98]%N; apply ex_ab|].
  split; [cbn; lia|]. intros H.
  assert (G : map ev_token (fst (fst (type_text [] (layout_new ex_layers) None [97; 99]%N))) = [TSkip 97; TSkip 99]%N) by (vm_compute; reflexivity).
  rewrite G in H. apply greedy_inv in H as (r & E & Hu & _). apply (Hu [97%N]).
  - exists "Dl1". eexists. split; [left; reflexivity|left; reflexivity].
  - exists [99%N]. reflexivity.
Qed.
Example C12_example : fingered defaultFingermap ex_layers /\ prev_fingered defaultFingermap None.
Proof. split; [apply ex_fingered|exact I]. Qed.

(** C13: every yielded combination types the match. *)
Theorem C13_combinations fm ls last t m c : layers_ok ls -> (exists x, assigned ls x) -> layers_wf ls -> mods_disjoint ls ->
  In (EMatch m c) (fst (fst (type_text fm (layout_new ls) last t))) ->
  getText (layout_new ls) c = Ok (CText m) /\ exists cs, lookup (layout_new ls) m = Ok (m, cs) /\ In c cs.
Proof.
  intros Hok Hex Hwf Hd Hi. destruct (@type_coverage fm text read_full (fun t => t) ls) with (fuel := S (length t)) (r := t) (buf := @nil N) (last := last)
    as (es & l & E & Hc & Hf); auto using full_reads_file, read_full_ok; [cbn; lia|].
  unfold type_text in Hi. rewrite E in Hi. cbn [fst] in Hi. rewrite Forall_forall in Hf. specialize (Hf _ Hi). cbn in Hf.
  split.
  - pose proof Hf as Hw. apply in_ways in Hf as (la & b & md & _ & _ & _ & ->). apply getText_ways; assumption.
  - exists (ways ls m). split; [|exact Hf]. apply lookup_ok. split; [|reflexivity].
    apply in_ways in Hf as (la & b & md & Hl & Hb & _ & _).
    split; [exists b, la; auto|]. split; [exists []; rewrite app_nil_r; reflexivity|].
    intros t' _ [r Hr]. rewrite Hr, app_length. lia.
Qed.
Example C13_example : layers_wf ex_layers /\ mods_disjoint ex_layers /\
  map (fun e => match e with EMatch m c => (m, elems (cmod c), elems (cbtn c)) | ESkip c => ([c], [], []) end)
    (fst (fst (type_text defaultFingermap (layout_new ex_layers) None [65; 97; 98; 65]%N))) =
  [([65], ["Er_shift"], ["Dl1"]); ([97; 98], [], ["Dl2"]); ([65], ["Er_shift"], ["Dl1"])]%N.
Proof. split; [apply C07_example|]. split; [apply C07_example|]. vm_compute. reflexivity. Qed.

(** C14: the choice is lexicographic, first listed on ties. *)
Theorem C14_choice fm prev cs : length fm < 128 -> cs <> [] -> prev_fingered fm prev -> Forall (comb_fingered fm) cs ->
  exists l1 c l2, chooseCombination fm prev cs = Ok c /\ cs = l1 ++ c :: l2 /\
    Forall (fun c' => lex_lt (criteria fm prev c) (criteria fm prev c')) l1 /\
    Forall (fun c' => ~ lex_lt (criteria fm prev c') (criteria fm prev c)) l2.
Proof. intros. apply chooseCombination_lex; assumption. Qed.
Example C14_example :
  let cs := [press2 "El_shift" "Dl1"; press2 "Er_shift" "Dl1"; press1 "Fl_space"; press1 "Fr_space"] in
  Forall (comb_fingered defaultFingermap) cs /\
  map (criteria defaultFingermap (Some (press1 "Dl1"))) cs = [(2, 2, 2); (2, 0, 2); (1, 1, 2); (1, 1, 0)]%Z /\
  chooseCombination defaultFingermap (Some (press1 "Dl1")) cs = Ok (press1 "Fr_space").
Proof.
  cbn zeta. split; [|split; vm_compute; reflexivity].
  repeat apply Forall_cons; try apply Forall_nil; split; apply inclb_ok; vm_compute; reflexivity.
Qed.

(** The same for what is typed: among all ways to type a match the best one is
    taken, with respect to the combination pressed before. *)
Fixpoint pressed_last (last : option comb) (es : list event) : option comb :=
  match es with
  | [] => last
  | EMatch _ c :: es' => pressed_last (Some c) es'
  | ESkip _ :: es' => pressed_last last es'
  end.
Lemma loop_choice fm (R : Type) (read : R -> nat -> text * R) ls fuel : length fm < 128 -> layers_ok ls -> fingered fm ls ->
  forall r buf last, prev_fingered fm last ->
  let '(es, _, l) := type_loop fm R read (layout_new ls) fuel r buf last in
  l = pressed_last last es /\ prev_fingered fm l /\
  forall es1 m c es2, es = es1 ++ EMatch m c :: es2 -> prev_fingered fm (pressed_last last es1) /\
    assigned ls m /\ chooseCombination fm (pressed_last last es1) (ways ls m) = Ok c.
Proof.
  intros Hs Hok Hf. induction fuel as [|fuel IH]; intros r buf last Hp; [cbn; split; [reflexivity|]; split; [exact Hp|]; intros [|? es1] ? ? ? X; discriminate X|].
  rewrite type_loop_eq. destruct (read r _) as [s r'].
  destruct (buf ++ s) as [|ch rst] eqn:B; [cbn; split; [reflexivity|]; split; [exact Hp|]; intros [|? es1] ? ? ? X; discriminate X|].
  destruct (step fm (layout_new ls) last (ch :: rst)) as [[m c]|e] eqn:Es.
  - assert (Ec : assigned ls m /\ chooseCombination fm last (ways ls m) = Ok c).
    { unfold step in Es. destruct (lookup (layout_new ls) (ch :: rst)) as [[m' cs]|] eqn:E; cbn [bind fst snd] in Es; [|discriminate Es].
      apply lookup_ok in E as [(Ha & _) ->]. destruct (Nat.ltb 0 (length m')); cbn [assert_ bind] in Es; [|discriminate Es].
      destruct (chooseCombination fm last (ways ls m')) as [c'|] eqn:Ec; cbn [bind] in Es; [|discriminate Es]. inversion Es; subst. auto. }
    destruct Ec as [Ha Ec]. assert (Hc : prev_fingered fm (Some c)).
    { cbn. eapply ways_fingered; [exact Hf|]. eapply chooseCombination_in, Ec. }
    specialize (IH r' (skipn (length m) (ch :: rst)) (Some c) Hc).
    destruct (type_loop _ _ _ _ _ _ _ _) as [[es f] l]. destruct IH as (El & Hl & IH). split; [exact El|]. split; [exact Hl|].
    intros [|e1 es1] m1 c1 es2 X; injection X as X1 X2.
    + subst. cbn. auto.
    + subst e1. cbn [pressed_last]. eapply IH, X2.
  - assert (e = KeyError) as -> by (eapply step_err; eassumption). specialize (IH r' rst last Hp).
    destruct (type_loop _ _ _ _ _ _ _ _) as [[es f] l]. destruct IH as (El & Hl & IH). split; [exact El|]. split; [exact Hl|].
    intros [|e1 es1] m1 c1 es2 X; [discriminate X|]. injection X as X1 X2. subst e1. cbn [pressed_last]. eapply IH, X2.
Qed.
Theorem C14_typed fm (R : Type) (read : R -> nat -> text * R) ls fuel r last es1 m c es2 : length fm < 128 -> layers_ok ls ->
  fingered fm ls -> prev_fingered fm last ->
  fst (fst (type_loop fm R read (layout_new ls) fuel r [] last)) = es1 ++ EMatch m c :: es2 ->
  exists l1 l2, ways ls m = l1 ++ c :: l2 /\ let prev := pressed_last last es1 in
    Forall (fun c' => lex_lt (criteria fm prev c) (criteria fm prev c')) l1 /\
    Forall (fun c' => ~ lex_lt (criteria fm prev c') (criteria fm prev c)) l2.
Proof.
  intros Hs Hok Hf Hp E. pose proof (@loop_choice fm R read ls fuel Hs Hok Hf r [] last Hp) as H.
  destruct (type_loop _ _ _ _ _ _ _ _) as [[es f] l]. cbn [fst] in E. destruct H as (_ & _ & H). destruct (H _ _ _ _ E) as (Hp' & Ha & Ec).
  destruct (@chooseCombination_lex fm Hs (pressed_last last es1) (ways ls m)) as (l1 & c' & l2 & Ec' & Ew & F1 & F2).
  - apply ways_nonempty; assumption.
  - exact Hp'.
  - apply Forall_forall. intros c' Hc'. eapply ways_fingered; eassumption.
  - assert (c' = c) by congruence. subst c'. exists l1, l2. auto.
Qed.
(** What a writer remembers between two texts is the last combination. *)
Theorem C14_remembered fm (R : Type) (read : R -> nat -> text * R) ls fuel r last : length fm < 128 -> layers_ok ls ->
  fingered fm ls -> prev_fingered fm last ->
  let '(es, _, l) := type_loop fm R read (layout_new ls) fuel r [] last in l = pressed_last last es.
Proof.
  intros Hs Hok Hf Hp. pose proof (@loop_choice fm R read ls fuel Hs Hok Hf r [] last Hp) as H.
  destruct (type_loop _ _ _ _ _ _ _ _) as [[es f] l]. apply H.
Qed.
Example C14_typed_example :
  let '(es, _, l) := type_text defaultFingermap (layout_new ex_layers) None [65; 97; 98; 200; 65]%N in
  map ev_token es = [TMatch [65]; TMatch [97; 98]; TSkip 200; TMatch [65]]%N /\ pressed_last None (firstn 3 es) = Some (press1 "Dl2") /\
  l = Some (press2 "Er_shift" "Dl1").
Proof. vm_compute. repeat split. Qed.

(** C15: hand alternation. *)
Theorem C15_alternate_partial fm p d l r cs : length fm < 128 ->
  (exists q, p = press1 q /\ on_hand fm q d) \/ (exists m b db, p = press2 m b /\ on_hand fm m d /\ on_hand fm b db) ->
  on_hand fm l LEFT -> on_hand fm r RIGHT -> cs = [press1 l; press1 r] \/ cs = [press1 r; press1 l] ->
  chooseCombination fm (Some p) cs = Ok (press1 (match d with LEFT => r | RIGHT => l end)).
Proof. intros. eapply alternate; eassumption. Qed.
Theorem C15_any_history_partial fm p l r cs : length fm < 128 -> comb_fingered fm p -> on_hand fm l LEFT -> on_hand fm r RIGHT ->
  cs = [press1 l; press1 r] \/ cs = [press1 r; press1 l] ->
  ((lean fm p > 0)%Z -> chooseCombination fm (Some p) cs = Ok (press1 r)) /\
  ((lean fm p < 0)%Z -> chooseCombination fm (Some p) cs = Ok (press1 l)) /\
  (lean fm p = 0%Z -> chooseCombination fm (Some p) cs = Ok (hd (press1 l) cs)).
Proof. intros. apply two_keys; assumption. Qed.
Theorem C15_shift fm prev ml mr k d cs : length fm < 128 -> prev_fingered fm prev ->
  on_hand fm ml LEFT -> on_hand fm mr RIGHT -> on_hand fm k d ->
  cs = [press2 ml k; press2 mr k] \/ cs = [press2 mr k; press2 ml k] ->
  chooseCombination fm prev cs = Ok (press2 (match d with LEFT => mr | RIGHT => ml end) k).
Proof. intros. eapply two_mods; eassumption. Qed.
Theorem C15_no_history fm a b da db : length fm < 128 -> on_hand fm a da -> on_hand fm b db ->
  chooseCombination fm None [press1 a; press1 b] = Ok (press1 a).
Proof. intros. eapply no_history; eassumption. Qed.
Theorem C15_prefer_left_refuted : exists l r, on_hand defaultFingermap l LEFT /\ on_hand defaultFingermap r RIGHT /\
  chooseCombination defaultFingermap None [press1 r; press1 l] = Ok (press1 r).
Proof. exists "Fl_space", "Fr_space". repeat split; try (eexists; vm_compute; reflexivity). Qed.
Example C15_example :
  on_hand defaultFingermap "Fl_space" LEFT /\ on_hand defaultFingermap "Fr_space" RIGHT /\ on_hand defaultFingermap "El_shift" LEFT /\
  on_hand defaultFingermap "Er_shift" RIGHT /\ on_hand defaultFingermap "Cl1" LEFT.
Proof. repeat split; eexists; vm_compute; reflexivity. Qed.

(** C16: short reads. *)
Theorem C16_coverage fm (R : Type) (read : R -> nat -> text * R) (rest : R -> text) ls last r :
  file_like read rest -> layers_ok ls -> (exists x, assigned ls x) ->
  exists es l, type_loop fm R read (layout_new ls) (S (length (rest r))) r [] last = (es, Done, l) /\
    concat (map ev_text es) = rest r.
Proof.
  intros Hf Hok Hex. destruct (@type_coverage fm R read rest ls) with (fuel := S (length (rest r))) (r := r) (buf := @nil N) (last := last)
    as (es & l & E & Hc & _); auto; cbn; try lia. eauto.
Qed.
Theorem C16_greedy_partial fm (R : Type) (read : R -> nat -> text * R) (rest : R -> text) ls last r :
  full_reads read rest -> layers_ok ls -> (exists x, assigned ls x) -> fingered fm ls -> length fm < 128 -> prev_fingered fm last ->
  greedy ls (rest r) (map ev_token (fst (fst (type_loop fm R read (layout_new ls) (S (length (rest r))) r [] last)))).
Proof. intros. apply (@type_greedy fm R read rest ls) with (buf := @nil N); auto; cbn; lia. Qed.
Theorem C16_greedy_refuted : exists ls st, file_like read_short fst /\ layers_ok ls /\ (exists x, assigned ls x) /\
  fingered defaultFingermap ls /\
  ~ greedy ls (fst st) (map ev_token (fst (fst (type_loop defaultFingermap _ read_short (layout_new ls) (S (length (fst st))) st [] None)))).
Proof.
  exists ex_layers, ([97; 98]%N, [0; 0]). split; [apply read_short_ok|]. split; [apply ex_ok|].
  split; [exists [97; 98]%N; apply ex_ab|]. split; [apply ex_fingered|]. intros H.
  assert (G : map ev_token (fst (fst (type_loop defaultFingermap _ read_short (layout_new ex_layers) 3 ([97; 98]%N, [0; 0]) [] None)))
    = [TMatch [97]; TSkip 98]%N) by (vm_compute; reflexivity).
  change (S (length (fst ([97; 98]%N, [0; 0])))) with 3 in H. rewrite G in H. apply greedy_inv in H as (r & E & _ & (_ & _ & Hm) & _).
  specialize (Hm [97; 98]%N). cbn [length] in Hm. assert (2 <= 1); [|lia]. apply Hm.
  - apply ex_ab.
  - exists []. reflexivity.
Qed.
Example C16_example : file_like read_short fst /\ full_reads read_full (fun t => t).
Proof. split; [apply read_short_ok|apply read_full_ok]. Qed.

Print Assumptions C11_coverage.
Print Assumptions C11_null_layout.
Print Assumptions C12_greedy.
Print Assumptions C12_unique.
Print Assumptions C12_shipped.
Print Assumptions C12_needs_fingers.
Print Assumptions C13_combinations.
Print Assumptions C14_choice.
Print Assumptions C14_typed.
Print Assumptions C14_remembered.
Print Assumptions C15_alternate_partial.
Print Assumptions C15_any_history_partial.
Print Assumptions C15_shift.
Print Assumptions C15_no_history.
Print Assumptions C15_prefer_left_refuted.
Print Assumptions C16_coverage.
Print Assumptions C16_greedy_partial.
Print Assumptions C16_greedy_refuted.
