(** C103: the word list for LatinIME. *)
From Coq Require Import Ascii Lia Permutation.
From Verif Require Import Base LayoutModel StatsModel StatsSpec PlotModel PlotProofs WriterModel WriterSpec PropsStats PropsTools KlcModel CsrcModel WordlistModel FilesSpec FilesProofs WordlistSpec WordlistProofs.
Open Scope string_scope.
Open Scope list_scope.

(** All that is printed: the header, then a line for every word of the dictionary (C60) *)
Theorem C103_prints now words :
  (forall l, latinIme words = Ok l -> latinImeDict now words = (wordlistHead now ++ flat_map (fun wf : text * Z => wordLine (fst wf) (snd wf)) l, None)) /\
  (forall e, latinIme words = Raise e -> snd (latinImeDict now words) = Some e).
Proof.
  unfold latinIme, latinImeDict. split; intros x E; cbv zeta in E.
  - rewrite (wordLines_ok _ _ _ E). reflexivity.
  - apply wordLines_fail in E. destruct (wordLines _ _) as [t e]. exact E.
Qed.

(** A list of words without commas and line breaks is read by makedict: each word once, with the frequency of C60, falling. *)
Theorem C103_reads now words : (0 <= now)%Z -> (forall w n, In (w, n) words -> plain_word w /\ (0 < n)%Z) -> (sumZ snd words <= 3 * 10 ^ 15)%Z ->
  exists t l, latinImeDict now words = (t, None) /\ read_list t = Some (attributes now, l) /\ latinIme words = Ok l.
Proof.
  intros N W T. destruct (C60_succeeds words) as [l El].
  { apply Forall_forall. intros [w n] I. apply (W w n I). }
  pose proof (C60_dictionary words l El) as (_ & F & _). destruct (C103_prints now words) as [P _]. eexists _, l. split; [exact (P l El)|]. split; [|exact El].
  apply list_read; [exact N|]. eapply Forall_impl; [|exact F]. intros [w f] (n & I & E). cbn [fst snd] in *. destruct (W w n I) as [Pw Pn]. split; [exact Pw|].
  assert (L : (n <= sumZ snd words)%Z).
  { clear - W I. induction words as [|[w' m] words IH]; [destruct I|]. rewrite sumZ_cons. cbn [snd].
    assert (Q : (0 <= sumZ snd words)%Z) by (apply sumZ_nonneg; intros [a b] J; cbn [snd]; destruct (W a b (or_intror J)); lia).
    destruct I as [I|I]; [injection I as -> ->; lia|]. destruct (W w' m (or_introl eq_refl)). specialize (IH (fun a b J => W a b (or_intror J)) I). lia. }
  split; [apply (C60_nonneg n (sumZ snd words) f); [exact Pn|lia|exact E]|]. apply (C60_f_value n (sumZ snd words) f); [lia|exact E].
Qed.

(** Statistics: of a run over any events, with any layout, or combined from others *)
Inductive statistics (letter : N -> bool) : StatsModel.words -> Prop :=
| st_run L es s : foldM (words_process letter L) es words_init = Ok s -> statistics letter s
| st_combined l : Forall (statistics letter) l -> statistics letter (fold_left words_update l words_init).
Fixpoint statistics_good letter s (H : statistics letter s) {struct H} : good letter (w_words s).
Proof.
  destruct H as [L es s E|l F].
  - assert (G : forall es s s', wgood letter s -> foldM (words_process letter L) es s = Ok s' -> wgood letter s').
    { clear. induction es as [|e es IH]; intros s s' G E; cbn [foldM] in E; [injection E as <-; exact G|]. apply bind_inv in E as (m & Em & E). exact (IH m s' (wgood_process letter L s e m G Em) E). }
    refine (proj1 (G es words_init s _ E)). split; [intros w n []|reflexivity].
  - assert (I : good letter (w_words words_init)) by (intros w n []). revert I. generalize words_init. revert l F. fix IH 2. intros l F a Ga. destruct F as [|b l B F]; [exact Ga|].
    cbn [fold_left]. apply (IH l F). cbn [words_update w_words]. apply good_update; [exact Ga|exact (statistics_good letter b B)].
Qed.
(** The word list of any statistics can be read: only letters (Lo) and marks (Mn) are in words, and neither comma nor line breaks are among these. *)
Theorem C103_statistics category now s : category 44%N = "Po" -> category 10%N = "Cc" -> category 13%N = "Cc" -> (0 <= now)%Z ->
  statistics (is_letter category) s -> (sumZ snd (w_words s) <= 3 * 10 ^ 15)%Z ->
  exists t l, latinImeDict now (w_words s) = (t, None) /\ read_list t = Some (attributes now, l) /\ Permutation (map fst l) (dkeys (w_words s)) /\
    Forall (fun wf => exists count, In (fst wf, count) (w_words s) /\ f_value count (sumZ snd (w_words s)) = Ok (snd wf)) l.
Proof.
  intros C1 C2 C3 N H T. pose proof (statistics_good _ _ H) as G. destruct (C103_reads now (w_words s) N) as (t & l & E & R & El); [|exact T|].
  - intros w n I. destruct (G w n I) as [[_ L] P]. split; [|exact P]. intros c Ic X. rewrite forallb_forall in L. specialize (L c Ic).
    destruct X as [<-|[<-|[<-|[]]]]; unfold is_letter in L; [rewrite C2 in L|rewrite C3 in L|rewrite C1 in L]; discriminate L.
  - exists t, l. destruct (C60_dictionary _ _ El) as (P & F & _). auto.
Qed.

Definition some_category (c : N) : string := if (c =? 44)%N then "Po" else if (c <? 32)%N then "Cc" else if (c =? 32)%N then "Zs" else "Lo".
Definition some_words : StatsModel.words := mkWords [([0x643; 0x62A]%N, 3%Z); ([0x628]%N, 9%Z)] [].
Example C103_example : latinImeDict 12 (w_words some_words) =
  (lit "# auto-generated by lulua" ++ nl ++ lit "dictionary=main:ar,locale=ar,description=Arabic wordlist,date=12,version=1" ++ nl ++
   lit " word=" ++ [0x628%N] ++ lit ",f=253" ++ nl ++ lit " word=" ++ [0x643; 0x62A]%N ++ lit ",f=245" ++ nl, None) /\
  read_list (fst (latinImeDict 12 (w_words some_words))) = Some (attributes 12, [([0x628]%N, 253%Z); ([0x643; 0x62A]%N, 245%Z)]).
Proof. split; vm_compute; reflexivity. Qed.
(** Statistics with a word: typing b, a blank *)
Definition some_layout : layout := layout_new [mkLayer [frozenset []] [("x", CText [0x628%N]); ("s", CText [32%N])]].
Example C103_run : exists s, statistics (is_letter some_category) s /\ w_words s = [([0x628%N], 1%Z)].
Proof.
  destruct (foldM (words_process (is_letter some_category) some_layout) [SComb (press1 "x"); SComb (press1 "s")] words_init) as [s|] eqn:E.
  - exists s. split; [exact (st_run _ _ _ _ E)|]. vm_compute in E. injection E as <-. reflexivity.
  - vm_compute in E. discriminate E.
Qed.
(** The conditions are needed: a word with a comma, with a line break; more than 3 * 10^15 words give a negative frequency. *)
Theorem C103_reads_needs_plain : forall c, In c [10; 13; 44]%N -> exists t, latinImeDict 0 [([97%N; c; 98%N], 1%Z)] = (t, None) /\ read_list t = None.
Proof. intros c [<-|[<-|[<-|[]]]]; eexists; (split; [vm_compute; reflexivity|vm_compute; reflexivity]). Qed.
Theorem C103_reads_needs_bound : exists t, latinImeDict 0 [([97%N], 1%Z); ([98%N], 4 * 10 ^ 15)%Z] = (t, None) /\ read_list t = None.
Proof. eexists. split; [vm_compute; reflexivity|vm_compute; reflexivity]. Qed.

Print Assumptions C103_prints.
Print Assumptions C103_reads.
Print Assumptions C103_statistics.
Print Assumptions C103_reads_needs_plain.
Print Assumptions C103_reads_needs_bound.
