(** C107: the text of pretty-printed statistics. *)
From Coq Require Import QArith Qabs Lqa Ascii Lia.
From Verif Require Import Base LayoutModel DataLayouts ShippedProofs CarpalxQ CarpalxShipped DataModels PropsTools KlcModel CsrcModel FilesSpec FilesProofs TableModel ReportModel WidgetModel WidgetSpec WidgetProofs StatsModel StatsSpec CarpalxModel CarpalxSpec PlotModel PlotSpec PrettyModel PropsPretty PrettyTextModel PrettyTextSpec.
From Verif Require PropsPage PropsReport PlotProofs.
Close Scope Q_scope.
Close Scope Z_scope.
Open Scope string_scope.
Open Scope list_scope.
Unset Implicit Arguments.

Definition tight_end (t : text) : Prop := forall a c, t = a ++ [c] -> is_blank c = false.
Lemma drop_blanks m t : drop (repeat 32%N m ++ t) = drop t.
Proof. induction m as [|m IH]; [reflexivity|]. cbn [repeat app drop]. exact IH. Qed.
Lemma drop_id t : (forall c r, t = c :: r -> is_blank c = false) -> drop t = t.
Proof. destruct t as [|c t]; [reflexivity|]. intros H. cbn [drop]. rewrite (H c t eq_refl). reflexivity. Qed.
Lemma rev_repeat {A} (x : A) m : rev (repeat x m) = repeat x m.
Proof. induction m as [|m IH]; [reflexivity|]. cbn [repeat rev]. rewrite IH. clear. induction m as [|m IH]; [reflexivity|]. cbn [repeat app]. rewrite IH. reflexivity. Qed.
Lemma repeat_shift {A} (x : A) n t : x :: repeat x n ++ t = repeat x n ++ x :: t.
Proof. induction n as [|n IH]; [reflexivity|]. cbn [repeat app]. rewrite <- IH. reflexivity. Qed.
Lemma strip_padded t m : tight_end t -> strip_end (t ++ repeat 32%N m) = t.
Proof.
  intros T. unfold strip_end. rewrite rev_app_distr, rev_repeat, drop_blanks, drop_id; [apply rev_involutive|].
  intros c r E. apply (T (rev r)). rewrite <- (rev_involutive t), E. reflexivity.
Qed.
Lemma last_at a n f m : wordy f -> last_field (a ++ 32%N :: repeat 32%N n ++ f ++ repeat 32%N m) = (a ++ repeat 32%N n, f).
Proof.
  intros [Ne F]. unfold last_field. rewrite repeat_shift. rewrite !rev_app_distr. cbn [rev]. rewrite !rev_app_distr, !rev_repeat. rewrite <- !app_assoc.
  rewrite drop_blanks.
  assert (Fr : free is_blank (rev f)) by (intros c I; apply F, in_rev, I). assert (Nr : rev f <> []) by (intros E; apply Ne; rewrite <- (rev_involutive f), E; reflexivity).
  rewrite drop_id.
  - cbn [app]. rewrite cut_at by (exact Fr || reflexivity). rewrite rev_app_distr, !rev_involutive, rev_repeat. reflexivity.
  - intros c r E. destruct (rev f) as [|d g]; [congruence|]. injection E as <- _. apply Fr. left. reflexivity.
Qed.
Lemma free_blank t : Forall (fun c => 37 <= c <= 57)%N t -> free is_blank t.
Proof. intros H c I. rewrite Forall_forall in H. specialize (H c I). unfold is_blank. apply orb_false_iff. split; apply N.eqb_neq; lia. Qed.
Lemma dec_wordy n : wordy (dec n).
Proof. split; [apply dec_nonempty|]. apply free_blank. eapply Forall_impl; [|apply dec_range]. cbn. intros. lia. Qed.
Lemma fixed_chars k q : Forall (fun c => 37 <= c <= 57)%N (fixed k q).
Proof.
  unfold fixed. cbv zeta. apply Forall_app. split; [destruct (QArith_base.Qnum q <? 0)%Z; constructor; [cbn; lia|constructor]|]. apply Forall_app. split.
  - eapply Forall_impl; [|apply dec_range]. cbn. intros. lia.
  - apply Forall_app. split; [constructor; [cbn; lia|constructor]|]. eapply Forall_impl; [|apply zfill_digits]. cbn. intros. lia.
Qed.
Lemma fixed_nonempty k q : fixed k q <> [].
Proof. unfold fixed. cbv zeta. intros E. apply app_eq_nil in E as [_ E]. apply app_eq_nil in E as [E _]. apply (dec_nonempty _ E). Qed.
Lemma fixed_wordy k q : wordy (fixed k q).
Proof. split; [apply fixed_nonempty|apply free_blank, fixed_chars]. Qed.
Lemma percent_wordy k q : wordy (fixed k q ++ lit "%").
Proof. split; [intros E; apply app_eq_nil in E as [E _]; apply (fixed_nonempty _ _ E)|]. apply free_blank, Forall_app. split; [apply fixed_chars|]. constructor; [cbn; lia|constructor]. Qed.
Lemma whole_dec n : whole (dec n) = Some n.
Proof. unfold whole. rewrite dec_number. pose proof (dec_nonempty n). destruct (dec n); [congruence|reflexivity]. Qed.
Lemma int_pos v : (0 <= v)%Z -> int v = dec (Z.to_N v).
Proof. intros H. unfold int. destruct (Z.ltb_spec v 0); [lia|]. rewrite Zabs2N.abs_N_nonneg by lia. reflexivity. Qed.
Lemma whole_int v : (0 <= v)%Z -> whole (int v) = Some (Z.to_N v).
Proof. intros H. rewrite int_pos by exact H. apply whole_dec. Qed.
(** ** Rows *)
Lemma count_reads l v m : tight_end l -> (0 <= v)%Z -> read_count ((l ++ lit " " ++ int10 v) ++ repeat 32%N m) = Some (l, Z.to_N v).
Proof.
  intros T V. unfold read_count, int10, padl. rewrite <- !app_assoc. change (lit " " ++ ?x) with (32%N :: x). rewrite last_at by (rewrite int_pos by exact V; apply dec_wordy).
  rewrite whole_int by exact V. rewrite strip_padded by exact T. reflexivity.
Qed.
Lemma row_reads k w l v p : 1 <= k -> tight_end l -> (0 <= v)%Z ->
  exists z, read_row k (l ++ lit " " ++ int10 v ++ lit " " ++ padl w (fixed k p) ++ lit "%") = Some (l, Z.to_N v, z) /\ near k p z.
Proof.
  intros K T V. destruct (fixed_reads k p K) as (z & E & Nz). exists z. split; [|exact Nz]. unfold read_row, padl.
  assert (A : l ++ lit " " ++ int10 v ++ lit " " ++ (repeat 32%N (w - List.length (fixed k p)) ++ fixed k p) ++ lit "%"
    = (l ++ lit " " ++ int10 v) ++ 32%N :: repeat 32%N (w - List.length (fixed k p)) ++ (fixed k p ++ lit "%") ++ repeat 32%N 0).
  { cbn [repeat]. rewrite app_nil_r, <- !app_assoc. reflexivity. }
  rewrite A, last_at by apply percent_wordy. rewrite count_reads by assumption. unfold percent. rewrite rev_app_distr. cbn [lit rev app].
  change (rev (lit "%")) with [37%N]. cbn [app]. rewrite rev_involutive. change (37 =? 37)%N with true. rewrite E. reflexivity.
Qed.
Lemma word_reads k n w p v : 1 <= k -> tight_end w -> (0 <= v)%Z ->
  exists z, read_word k (padr n w ++ lit " " ++ fixed k p ++ lit " " ++ int10 v) = Some (w, z, Z.to_N v) /\ near k p z.
Proof.
  intros K T V. destruct (fixed_reads k p K) as (z & E & Nz). exists z. split; [|exact Nz]. unfold read_word.
  pose proof (count_reads (padr n w ++ lit " " ++ fixed k p) v 0) as C. cbn [repeat] in C. rewrite app_nil_r, <- !app_assoc in C. rewrite C; [|clear C|exact V].
  - pose proof (last_at (padr n w) 0 (fixed k p) 0 (fixed_wordy k p)) as F. cbn [repeat app] in F. rewrite !app_nil_r in F. change (lit " " ++ fixed k p) with (32%N :: fixed k p).
    rewrite F, E. unfold padr. rewrite strip_padded by exact T. reflexivity.
  - intros a c Ea. destruct (fixed_wordy k p) as [Ne F]. destruct (exists_last Ne) as (f & d & Ef). rewrite Ef in Ea. rewrite !app_assoc in Ea.
    apply app_inj_tail in Ea as [_ <-]. apply F. rewrite Ef. apply in_or_app. right. left. reflexivity.
Qed.
Lemma tight_padl w n : tight_end (padl w (dec n)).
Proof.
  intros a c E. destruct (dec_wordy n) as [Ne F]. unfold padl in E. destruct (exists_last Ne) as (f & d & Ef). rewrite Ef in E. rewrite app_assoc in E.
  apply app_inj_tail in E as [_ <-]. apply F. rewrite Ef. apply in_or_app. right. left. reflexivity.
Qed.
(** * What is read *)
Section Read.
  Variable shownButton : string -> text.
  Variable shownComb : comb -> text.
  Variable shownChar : N -> text.
  Variable shownHand : direction -> text.
  Variable shownTriad : triad -> text.
  Variable shownEffort : Q -> text.
  Let text_of := lineText shownButton shownComb shownChar shownHand shownTriad shownEffort.
  (** Numbers of a line can be read: counts and ranks exactly, percentages rounded. *)
  Definition legible (l : line) : Prop :=
    match l with
    | Presses n => read_count (text_of l) = Some (lit "button presses", Z.to_N n)
    | Combinations n => read_count (text_of l) = Some (lit "combinations", Z.to_N n)
    | Words n => read_count (text_of l) = Some (lit "words", Z.to_N n)
    | Button b v p => exists z, read_row 1 (text_of l) = Some (shownButton b, Z.to_N v, z) /\ near 1 p z
    | Combination r t k v p => exists label z, read_row 3 (text_of l) = Some (label, Z.to_N v, z) /\ near 3 p z /\
        exists m, read_rank label = Some (Z.to_N r, t ++ repeat 32%N (S m) ++ shownComb k)
    | Unknown c v => read_count (text_of l) = Some (shownChar c, Z.to_N v)
    | Run k v p => exists label z, read_row 1 (text_of l) = Some (label, Z.to_N v, z) /\ near 1 p z /\ whole (drop label) = Some (N.of_nat k)
    | Triad t v => read_count (text_of l) = Some (shownTriad t, Z.to_N v)
    | Word w p v => exists z, read_word 5 (text_of l) = Some (w, z, Z.to_N v) /\ near 5 p z
    | Unknowns | Hand _ | Combined | Triads | TotalEffort _ => True
    end.
  (** Counts are not negative, and no label ends with a blank. *)
  Definition sane (l : line) : Prop :=
    match l with
    | Presses n | Combinations n | Words n => (0 <= n)%Z
    | Button b v _ => (0 <= v)%Z /\ tight_end (shownButton b)
    | Combination r _ k v _ => (0 <= r)%Z /\ (0 <= v)%Z /\ tight_end (shownComb k) /\ shownComb k <> []
    | Unknown c v => (0 <= v)%Z /\ tight_end (shownChar c)
    | Run _ v _ => (0 <= v)%Z
    | Triad t v => (0 <= v)%Z /\ tight_end (shownTriad t)
    | Word w _ v => (0 <= v)%Z /\ tight_end w
    | Unknowns | Hand _ | Combined | Triads | TotalEffort _ => True
    end.
  Lemma heading_reads h n : tight_end h -> (0 <= n)%Z -> read_count (h ++ lit " " ++ int n) = Some (h, Z.to_N n).
  Proof.
    intros T V. pose proof (last_at h 0 (int n) 0) as F. cbn [repeat app] in F. rewrite !app_nil_r in F. unfold read_count. change (lit " " ++ int n) with (32%N :: int n).
    rewrite F by (rewrite int_pos by exact V; apply dec_wordy). rewrite whole_int by exact V. pose proof (strip_padded h 0 T) as S. cbn [repeat] in S. rewrite app_nil_r in S. rewrite S. reflexivity.
  Qed.
  Lemma tight_snoc a c : is_blank c = false -> tight_end (a ++ [c]).
  Proof. intros H b d E. apply app_inj_tail in E as [_ <-]. exact H. Qed.
  Lemma tight_app a t : t <> [] -> tight_end t -> tight_end (a ++ t).
  Proof. intros N T b c E. destruct (exists_last N) as (f & d & ->). rewrite app_assoc in E. apply app_inj_tail in E as [_ <-]. apply (T f). reflexivity. Qed.
  (** Every such line can be read. *)
  Theorem C107_lines l : sane l -> legible l.
  Proof.
    destruct l; cbn [sane legible]; unfold text_of; cbn [lineText]; auto.
    - intros V. change (lit "button presses " ++ ?x) with (lit "button presses" ++ lit " " ++ x). apply heading_reads; [apply (tight_snoc (lit "button presse") 115%N eq_refl)|exact V].
    - intros [V T]. apply row_reads; [lia|exact T|exact V].
    - intros V. change (lit "combinations " ++ ?x) with (lit "combinations" ++ lit " " ++ x). apply heading_reads; [apply (tight_snoc (lit "combination") 115%N eq_refl)|exact V].
    - intros (R & V & T & Ne). destruct (row_reads 3 7 (int3 rank ++ lit ". " ++ padr 4 t ++ lit " " ++ shownComb k) v pct) as (z & E & Nz); [lia|rewrite !app_assoc; apply tight_app; assumption|exact V|].
      exists (int3 rank ++ lit ". " ++ padr 4 t ++ lit " " ++ shownComb k), z. split; [rewrite <- !app_assoc in E; exact E|]. split; [exact Nz|]. exists (4 - List.length t).
      unfold read_rank, int3, padl. destruct (Z.ltb_spec rank 0); [lia|]. rewrite Zabs2N.abs_N_nonneg by lia. set (w := 3 - _). rewrite <- !app_assoc, drop_blanks.
      change (lit " " ++ ?x) with (repeat 32%N 1 ++ x). rewrite drop_blanks. rewrite drop_id.
      + change (lit ". " ++ ?x) with (46%N :: lit " " ++ x). rewrite cut_at by (reflexivity || (apply free_range; [lia|apply dec_range])).
        change (lit " " ++ padr 4 t ++ repeat 32%N 1 ++ shownComb k) with (32%N :: padr 4 t ++ 32%N :: shownComb k). rewrite whole_dec. cbv iota. change (is_blank 32) with true. cbv iota.
        unfold padr. rewrite <- !app_assoc. cbn [repeat app]. rewrite repeat_shift. reflexivity.
      + intros c r Ec. destruct (dec_wordy (Z.to_N rank)) as [Nd Fd]. destruct (dec (Z.to_N rank)) as [|d g]; [congruence|]. injection Ec as <- _. apply Fd. left. reflexivity.
    - intros [V T]. pose proof (count_reads (shownChar ch) v 0 T V) as C. cbn [repeat] in C. rewrite app_nil_r in C. exact C.
    - intros V. destruct (row_reads 1 5 (padl 2 (dec (N.of_nat len))) v pct) as (z & E & Nz); [lia|apply tight_padl|exact V|]. eexists _, z. split; [exact E|]. split; [exact Nz|].
      unfold padl. rewrite drop_blanks, drop_id; [apply whole_dec|]. intros c r Ec. destruct (dec_wordy (N.of_nat len)) as [Nd Fd]. apply Fd. rewrite Ec. left. reflexivity.
    - intros [V T]. pose proof (count_reads (shownTriad t) v 0 T V) as C. cbn [repeat] in C. rewrite app_nil_r in C. exact C.
    - intros V. change (lit "words " ++ ?x) with (lit "words" ++ lit " " ++ x). apply heading_reads; [apply (tight_snoc (lit "word") 115%N eq_refl)|exact V].
    - intros [V T]. apply word_reads; [lia|exact T|exact V].
  Qed.
  Hypothesis Hb : forall b, tight_end (shownButton b).
  Hypothesis Hc : forall c, tight_end (shownComb c) /\ shownComb c <> [].
  Hypothesis Hu : forall c, tight_end (shownChar c).
  Hypothesis Ht : forall t, tight_end (shownTriad t).
  (** Counts are not negative. *)
  Definition counted (s : allstats) : Prop :=
    all_counts (fun v => 0 <= v)%Z (s_buttons (a_simple s)) /\ all_counts (fun v => 0 <= v)%Z (s_combs (a_simple s)) /\ all_counts (fun v => 0 <= v)%Z (s_unknown (a_simple s)) /\
    Forall (fun hd => all_counts (fun v => 0 <= v)%Z (snd hd)) (r_hand (a_runlen s)) /\ all_counts (fun v => 0 <= v)%Z (t_triads (a_triads s)) /\
    all_counts (fun v => 0 <= v)%Z (w_words (a_words s)).
  Lemma counted_total {K} (d : list (K * Z)) : all_counts (fun v => 0 <= v)%Z d -> (0 <= sumZ snd d)%Z.
  Proof. intros F. apply PlotProofs.sumZ_nonneg. unfold all_counts in F. rewrite Forall_forall in F. exact F. Qed.
  Lemma counted_perm {K} (d d' : list (K * Z)) : Permutation d' d -> all_counts (fun v => 0 <= v)%Z d -> all_counts (fun v => 0 <= v)%Z d'.
  Proof. unfold all_counts. rewrite !Forall_forall. intros P F x I. apply F. apply (Permutation_in _ P I). Qed.
  (** Everything printed about statistics can be read. *)
  Theorem C107_printed disp L s lines : printed_counts disp L s lines -> counted s -> (forall w v, In (w, v) (w_words (a_words s)) -> tight_end w) -> Forall legible lines.
  Proof.
    intros (bs & cs & us & hs & rs & ts & ws & P) (Cb & Cc & Cu & Ch & Ct & Cw) Hw. cbv zeta in P. destruct P as (-> & Ab & Ac & Au & Ah & Ar & At & Aw).
    assert (Fm : forall K (f : K * Z -> line) (d d' : list (K * Z)), Permutation d' d -> all_counts (fun v => 0 <= v)%Z d -> (forall kv, In kv d -> (0 <= snd kv)%Z -> sane (f kv)) -> Forall legible (map f d')).
    { intros K f d d' P F H. apply Forall_forall. intros l I. apply in_map_iff in I as (kv & <- & I). apply (Permutation_in _ P) in I. apply C107_lines, H; [exact I|].
      unfold all_counts in F. rewrite Forall_forall in F. exact (F _ I). }
    repeat (apply Forall_app; split); try (constructor; [|constructor]); try (apply C107_lines; cbn [sane]; try apply counted_total; try assumption; exact I); try exact I.
    - apply (Fm _ _ _ _ (proj1 Ab) Cb). intros kv _ V. split; [exact V|apply Hb].
    - destruct Ac as [[P _] R]. apply Forall_forall. intros l I. apply in_map_iff in I as ([[rank t] [k v]] & <- & I). apply C107_lines. cbn [comb_row sane].
      assert (I' : In (k, v) (map snd cs)) by (apply in_map_iff; exists (rank, t, (k, v)); split; [reflexivity|exact I]). apply (Permutation_in _ P) in I'.
      unfold all_counts in Cc. rewrite Forall_forall in Cc. specialize (Cc _ I'). apply In_nth_error in I as [i I]. destruct (R _ _ _ _ I) as (-> & _).
      assert (i < List.length cs) by (apply nth_error_Some; congruence). apply Permutation_length in P. rewrite map_length in P.
      split; [lia|]. split; [exact Cc|]. apply Hc.
    - apply (Fm _ _ _ _ (proj1 Au) Cu). intros kv _ V. split; [exact V|apply Hu].
    - apply Forall_forall. intros l I. apply in_flat_map in I as (hd' & Ih & I). destruct I as [<-|I]; [exact Logic.I|].
      assert (X : exists hd, In hd (r_hand (a_runlen s)) /\ by_run (snd hd) (snd hd')).
      { clear -Ah Ih. induction Ah as [|x y l l' [_ H] _ IH]; [destruct Ih|]. destruct Ih as [<-|Ih]; [exists x; split; [left; reflexivity|exact H]|].
        destruct (IH Ih) as (hd & I & H'). exists hd. split; [right; exact I|exact H']. }
      destruct X as (hd & Id & [P _]). rewrite Forall_forall in Ch. specialize (Ch _ Id). revert l I. apply Forall_forall. apply (Fm _ _ _ _ P Ch). intros kv _ V. exact V.
    - assert (Cr : all_counts (fun v => 0 <= v)%Z rs).
      { apply Forall_forall. intros [n v] I. cbn [snd]. rewrite (proj2 Ar n v I). unfold runs_of. apply PlotProofs.sumZ_nonneg. intros hd Id. apply PlotProofs.amount_nonneg.
        rewrite Forall_forall in Ch. exact (Ch _ Id). }
      apply (Fm _ _ _ _ (Permutation_refl _) Cr). intros kv _ V. exact V.
    - apply (Fm _ _ _ _ (proj1 At) Ct). intros kv _ V. split; [exact V|apply Ht].
    - apply (Fm _ _ _ _ (proj1 Aw) Cw). intros [w v] I V. split; [exact V|apply (Hw w v I)].
  Qed.
End Read.

(** * Statistics of typed text *)
Lemma split_letters letter t w : In w (split_at letter t) -> Forall (fun c => letter c = true) w.
Proof.
  revert w. induction t as [|c t IH]; intros w; cbn [split_at]; [intros [<-|[]]; constructor|]. destruct (letter c) eqn:Lc.
  - destruct (split_at letter t) as [|x xs]; [intros [<-|[]]; constructor; [exact Lc|constructor]|].
    intros [<-|I]; [constructor; [exact Lc|apply IH; left; reflexivity]|apply IH; right; exact I].
  - intros [<-|I]; [constructor|apply IH, I].
Qed.
Lemma removelast_In {A} (l : list A) x : In x (removelast l) -> In x l.
Proof. induction l as [|y l IH]; [intros []|]. cbn [removelast]. destruct l as [|z l]; [intros []|]. intros [<-|I]; [left; reflexivity|right; apply IH, I]. Qed.
Lemma finished_letters letter t w : In w (finished_words letter t) -> Forall (fun c => letter c = true) w.
Proof. intros I. apply filter_In in I as [I _]. apply removelast_In in I. apply (split_letters _ _ _ I). Qed.
Lemma count_In {A} `{EqDec A} (x : A) l : count x l <> 0%Z -> In x l.
Proof. induction l as [|y l IH]; cbn; [congruence|]. destruct (eqb_spec x y) as [->|]; [left; reflexivity|]. intros N. right. apply IH. intros E. apply N. rewrite E. reflexivity. Qed.
Lemma sumZ_nonzero {A} (f : A -> Z) l : sumZ f l <> 0%Z -> exists x, In x l /\ f x <> 0%Z.
Proof.
  induction l as [|y l IH]; [intros []; reflexivity|]. rewrite PlotProofs.sumZ_cons. destruct (Z.eq_dec (f y) 0) as [E|E]; [|exists y; split; [left; reflexivity|exact E]].
  intros N. destruct IH as (x & I & H); [lia|]. exists x. split; [right; exact I|exact H].
Qed.
Section Typed.
  Variables (letter : N -> bool) (d : generic_data) (t : text) (s : allstats).
  Hypothesis Id : In d all_layouts.
  Hypothesis Et : PropsPage.typing letter d t = Ok s.
  Lemma weaken {K} (dict : list (K * Z)) : all_counts (fun v => 0 < v)%Z dict -> all_counts (fun v => 0 <= v)%Z dict.
  Proof. apply Forall_impl. intros. lia. Qed.
  Lemma typed_counted : counted s.
  Proof.
    destruct (typed_countable _ _ _ _ Id Et) as (Pb & Pc & Ph & Pw). destruct (typed_recorded _ _ _ _ Id Et) as ((_ & _ & W3 & _ & _ & W6 & _) & _).
    split; [apply weaken, Pb|]. split; [apply weaken, Pc|]. split; [apply weaken, (dict_positive _ _ _ _ Id Et _ CUnknown W3); reflexivity|].
    split; [eapply Forall_impl; [|exact Ph]; intros hd; apply weaken|]. split; [apply weaken, (dict_positive _ _ _ _ Id Et _ CTriad W6); reflexivity|apply weaken, Pw].
  Qed.
  Lemma typed_words w v : In (w, v) (w_words (a_words s)) -> Forall (fun c => letter c = true) w.
  Proof.
    intros I. destruct (typed_recorded _ _ _ _ Id Et) as ((_ & _ & _ & _ & _ & _ & W7) & _ & R). apply dget_In_iff in I; [|exact W7].
    specialize (R (CWord w)). cbn [recorded expected] in R. rewrite I in R. unfold nonzero, per_stretch in R.
    match type of R with context [sumZ ?f ?l] => destruct (Z.eqb_spec (sumZ f l) 0) as [E|E]; [discriminate R|] end.
    apply sumZ_nonzero in E as (st & _ & E). apply count_In in E. apply (finished_letters _ _ _ E).
  Qed.
End Typed.
(** Statistics of text typed on a shipped layout can be read, if blanks are not letters. *)
Theorem C107_shipped letter d t s disp it shownButton shownComb shownChar shownHand shownTriad shownEffort :
  In d all_layouts -> PropsPage.typing letter d t = Ok s -> letter 32%N = false -> letter 9%N = false ->
  (forall b, tight_end (shownButton b)) -> (forall c, tight_end (shownComb c) /\ shownComb c <> []) -> (forall c, tight_end (shownChar c)) -> (forall x, tight_end (shownTriad x)) ->
  let L := layout_new (shipped_layers d) in showable disp L ->
  Forall (legible shownButton shownComb shownChar shownHand shownTriad shownEffort) (fst (pretty disp L (shipped_model (@mod01 Qnum) it) s)).
Proof.
  intros Id Et L32 L9 Hb Hc Hu Ht L Hd. destruct (C87_shipped_counts letter d t s disp it Id Et Hd) as (counts & P & E).
  assert (F : Forall (legible shownButton shownComb shownChar shownHand shownTriad shownEffort) counts).
  { apply (C107_printed _ _ _ shownHand _ shownEffort Hb Hc Hu Ht _ _ _ _ P (typed_counted _ _ _ _ Id Et)).
    intros w v I a c ->. apply (typed_words _ _ _ _ Id Et) in I. apply Forall_app in I as [_ I]. inversion I as [|x l Lc _]. subst.
    unfold is_blank. apply orb_false_iff. split; apply N.eqb_neq; intros ->; congruence. }
  fold L in E. destruct E as [-> | (e & ->)]; [exact F|]. cbn [fst]. apply Forall_app. split; [exact F|]. constructor; [exact I|constructor].
Qed.
(** The texts of objects meet these conditions. *)
Theorem C107_labels letter d t s disp it cls args sets dq esc shownHand shownEffort :
  In d all_layouts -> PropsPage.typing letter d t = Ok s -> letter 32%N = false -> letter 9%N = false ->
  let L := layout_new (shipped_layers d) in showable disp L ->
  Forall (legible (buttonRepr cls args) (combRepr sets) (charRepr dq esc) shownHand (triadStr (combRepr sets)) shownEffort)
    (fst (pretty disp L (shipped_model (@mod01 Qnum) it) s)).
Proof.
  intros Id Et L32 L9 L Hd. apply (C107_shipped letter d t s disp it); try assumption.
  - intros b. unfold buttonRepr. rewrite !app_assoc. apply (tight_snoc _ 41%N eq_refl).
  - intros c. unfold combRepr. split; [rewrite !app_assoc; apply (tight_snoc _ 41%N eq_refl)|discriminate].
  - intros c. unfold charRepr. cbv zeta. rewrite app_assoc. apply tight_snoc. destruct (dq c); reflexivity.
  - intros x. unfold triadStr. rewrite app_assoc. apply (tight_snoc _ 41%N eq_refl).
Qed.
Example C107_possible : (exists s, PropsPage.typing (fun c => N.ltb 1000 c) data_ar_lulua [0x628; 32]%N = Ok s) /\ In data_ar_lulua all_layouts /\ showable (fun u => Ok u) (layout_new (shipped_layers data_ar_lulua)).
Proof. split; [eexists; vm_compute; reflexivity|]. split; [unfold all_layouts; do 6 right; left; reflexivity|]. intros k u _. exists u. reflexivity. Qed.

(** * Columns *)
Lemma padl_length w t : List.length t <= w -> List.length (padl w t) = w.
Proof. intros H. unfold padl. rewrite app_length, repeat_length. lia. Qed.
Lemma int10_length v : (0 <= v < 10 ^ 10)%Z -> List.length (int10 v) = 10.
Proof. intros V. apply padl_length. rewrite int_pos by lia. apply dec_length; [lia|]. change (10 ^ N.of_nat 10)%N with 10000000000%N. lia. Qed.
Lemma fixed_length k a q : 1 <= k -> 1 <= a -> (0 <= q)%Q -> (q <= inject_Z (10 ^ Z.of_nat a - 1))%Q -> List.length (fixed k q) <= a + 1 + k.
Proof.
  intros K A Q0 Q1. unfold fixed. cbv zeta. destruct q as [n m]. unfold Qle in Q0, Q1. cbn [QArith_base.Qnum Qden inject_Z] in *. rewrite Z.mul_1_r in *. cbn [Z.mul] in Q0.
  destruct (Z.ltb_spec n 0); [lia|]. cbn [app]. set (p := (10 ^ N.of_nat k)%N). assert (P : (p <> 0)%N) by (apply N.pow_nonzero; discriminate).
  rewrite !app_length. rewrite (proj1 (zfill_ok k _ K (N.mod_lt _ p P))). change (List.length (lit ".")) with 1.
  enough (List.length (dec (Z.to_N (round_he (Z.abs n * Z.of_N p) (Z.pos m)) / p)) <= a) by lia. apply dec_length; [exact A|].
  apply N.div_lt_upper_bound; [exact P|]. rewrite Z.abs_eq by lia. set (r := round_he _ _).
  destruct (@PropsReport.round_he_rounded (n * Z.of_N p) (Z.pos m) eq_refl) as [H0 _]. fold r in H0.
  apply N2Z.inj_lt. rewrite N2Z.inj_mul, N2Z.inj_pow, nat_N_Z. change (Z.of_N 10) with 10%Z. set (T := (10 ^ Z.of_nat a)%Z) in *. assert (Hp : (1 <= Z.of_N p)%Z) by lia. set (pz := Z.of_N p) in *.
  assert (Hr : (r <= (T - 1) * pz)%Z). { clearbody T r pz. nia. }
  assert (R0 : (0 <= r)%Z) by (apply round_he_nonneg; lia). rewrite Z2N.id by exact R0. nia.
Qed.
Lemma percent_fits k q : 1 <= k -> (0 <= q)%Q -> (q <= 100)%Q -> List.length (fixed k q) <= 4 + k.
Proof. intros K Q0 Q1. pose proof (fixed_length k 3 q K ltac:(lia) Q0) as H. change (inject_Z (10 ^ Z.of_nat 3 - 1)) with (999 # 1)%Q in H. enough (q <= 999 # 1)%Q by (specialize (H H0); lia). lra. Qed.
(** Counts with up to ten digits are in columns: what follows the label is as long in every
    row, and a label with a number of up to two digits too. *)
Theorem C107_columns shownButton shownComb shownChar shownHand shownTriad shownEffort v p : (0 <= v < 10 ^ 10)%Z -> (0 <= p)%Q -> (p <= 100)%Q ->
  let long l := List.length (lineText shownButton shownComb shownChar shownHand shownTriad shownEffort l) in
  (forall b, long (Button b v p) = List.length (shownButton b) + 18) /\
  (forall r t k, (0 <= r < 100)%Z -> List.length t <= 4 -> long (Combination r t k v p) = List.length (shownComb k) + 30) /\
  (forall c, long (Unknown c v) = List.length (shownChar c) + 11) /\
  (forall k, k < 100 -> long (Run k v p) = 20) /\
  (forall t, long (Triad t v) = List.length (shownTriad t) + 11).
Proof.
  intros V P0 P1 long. pose proof (int10_length v V) as Lv.
  assert (L1 : List.length (padl 5 (fixed 1 p)) = 5) by (apply padl_length, (percent_fits 1 p); lia || assumption).
  assert (L3 : List.length (padl 7 (fixed 3 p)) = 7) by (apply padl_length, (percent_fits 3 p); lia || assumption).
  unfold long; cbn [lineText]. repeat split; intros; rewrite !app_length, ?Lv, ?L1, ?L3.
  - change (List.length (lit " ")) with 1. change (List.length (lit "%")) with 1. lia.
  - change (List.length (lit " ")) with 1. change (List.length (lit "%")) with 1. change (List.length (lit ". ")) with 2.
    assert (E3 : List.length (int3 r) = 3).
    { apply padl_length. destruct (Z.ltb_spec r 0); [lia|]. rewrite Zabs2N.abs_N_nonneg by lia. pose proof (dec_length 2 (Z.to_N r) ltac:(lia)) as D.
      change (10 ^ N.of_nat 2)%N with 100%N in D. specialize (D ltac:(lia)). rewrite app_length. change (List.length (lit " ")) with 1. lia. }
    rewrite E3. unfold padr. rewrite app_length, repeat_length. lia.
  - change (List.length (lit " ")) with 1. lia.
  - change (List.length (lit " ")) with 1. change (List.length (lit "%")) with 1. rewrite padl_length; [reflexivity|]. apply dec_length; [lia|]. change (10 ^ N.of_nat 2)%N with 100%N. lia.
  - change (List.length (lit " ")) with 1. lia.
Qed.
Definition no_label {A} (_ : A) : text := [].
Definition some_text := lineText lit (fun _ => lit "c") no_label no_label no_label no_label.
(** Larger counts are not. *)
Theorem C107_columns_tight : List.length (some_text (Run 1 (10 ^ 10) 50)) = 21 /\ List.length (some_text (Run 100 1 50)) = 21.
Proof. split; vm_compute; reflexivity. Qed.
(** Words are not in columns: their percentages have no common width. *)
Theorem C107_words_ragged : exists w w' v v', List.length w = List.length w' /\ (0 < v)%Z /\ (0 < v')%Z /\
  List.length (some_text (Word w (part v (v + v')) v)) <> List.length (some_text (Word w' (part v' (v + v')) v')).
Proof. exists [0x628%N], [0x62A%N], 1%Z, 19%Z. repeat split. vm_compute. discriminate. Qed.
(** A blank at the end of a label is lost. *)
Theorem C107_lines_needs_tight : exists w, some_text (Word w 50 1) = some_text (Word (w ++ [32%N]) 50 1).
Proof. exists [0x628%N]. vm_compute. reflexivity. Qed.
Example C107_rows : some_text (Button "Dl1" 12 (part 12 19)) = lit "Dl1         12  63.2%" /\ some_text (Run 2 7 (part 7 8)) = lit " 2          7  87.5%" /\
  some_text (Combination 3 (lit "x") (mkComb bempty (frozenset ["Dl1"])) 1 (part 1 7)) = lit "  3. x    c          1  14.286%".
Proof. split; [|split]; vm_compute; reflexivity. Qed.
Example C107_read : read_row 1 (lit "Button('Dl1', 1, False)         12  63.2%") = Some (lit "Button('Dl1', 1, False)", 12%N, 632%Z) /\
  read_word 5 (lit "ab                   14.28571          1") = Some (lit "ab", 1428571%Z, 1%N).
Proof. split; vm_compute; reflexivity. Qed.
Example C107_sane : sane lit (fun _ => lit "c") no_label no_label (Combination 3 (lit "x") (mkComb bempty (frozenset ["Dl1"])) 1 (part 1 7)).
Proof. cbn [sane]. split; [lia|]. split; [lia|]. split; [|discriminate]. intros a c E. change (lit "c") with ([] ++ [99%N]) in E. apply app_inj_tail in E as [_ <-]. reflexivity. Qed.

Print Assumptions C107_lines.
Print Assumptions C107_printed.
Print Assumptions C107_shipped.
Print Assumptions C107_labels.
Print Assumptions C107_columns.
Print Assumptions C107_columns_tight.
Print Assumptions C107_words_ragged.
Print Assumptions C107_lines_needs_tight.
