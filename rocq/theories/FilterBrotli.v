(** Proofs for C45. *)
From Verif Require Import Base TextModel FilterModel FilterSpec FilterProofs.
Open Scope string_scope.
Open Scope list_scope.
Set Implicit Arguments.
Unset Strict Implicit.

Section Reads.
  Context {D : Type}.
  Variable process : D -> list N -> res (D * list N).
  Variable finished : D -> bool.
  Variable chunk : nat.
  Hypothesis Hchunk : 0 < chunk.
  Variables (d0 : D) (comp : list N) (fin : bool) (out : list N -> list N).
  Variable R : D -> list N -> Prop.
  Hypothesis R0 : R d0 [].
  Hypothesis O0 : out [] = [].
  Hypothesis Rfin : forall d p, R d p -> finished d = true -> p = comp.
  Hypothesis Rend : forall d, R d comp -> finished d = fin.
  Hypothesis Rstep : forall d p q r, R d p -> finished d = false -> comp = p ++ q ++ r -> (q = [] -> r = []) ->
    exists d' o, process d q = Ok (d', o) /\ R d' (p ++ q) /\ out (p ++ q) = out p ++ o.

  Definition binv (f : @bfile D) (del : list N) : Prop :=
    exists p, R (b_dec f) p /\ comp = p ++ b_fd f /\ del ++ b_buf f = out p.
  Lemma binv0 : binv (mkBF d0 [] comp) [].
  Proof. exists []. cbn. auto. Qed.
  (** What has been produced is a prefix of everything. *)
  Lemma out_prefix d p r : R d p -> comp = p ++ r -> exists o, out comp = out p ++ o.
  Proof.
    intros H E. destruct r as [|c r].
    - exists []. rewrite app_nil_r in *. subst. reflexivity.
    - assert (Nf : finished d = false).
      { destruct (finished d) eqn:F; [|reflexivity]. pose proof (Rfin H F) as Ep. rewrite <- Ep in E.
        rewrite <- (app_nil_r p) in E at 1. apply app_inv_head in E. discriminate. }
      destruct (@Rstep d p (c :: r) [] H Nf) as (d' & o & _ & _ & Eo); [rewrite app_nil_r; exact E|auto|].
      exists o. rewrite E at 1. exact Eo.
  Qed.
  Lemma binv_step f del : binv f del -> finished (b_dec f) = false ->
    exists d' o, process (b_dec f) (firstn chunk (b_fd f)) = Ok (d', o) /\
      binv (mkBF d' (b_buf f ++ o) (skipn chunk (b_fd f))) del.
  Proof.
    intros (p & H & E & Eo) Nf.
    destruct (@Rstep _ p (firstn chunk (b_fd f)) (skipn chunk (b_fd f)) H Nf) as (d' & o & Ep & Hr & Eo').
    - rewrite firstn_skipn. exact E.
    - intros K. destruct (b_fd f); [apply skipn_nil|]. destruct chunk; [lia|discriminate].
    - exists d', o. split; [exact Ep|]. exists (p ++ firstn chunk (b_fd f)). cbn. split; [exact Hr|].
      rewrite <- app_assoc, firstn_skipn. split; [exact E|]. rewrite Eo', <- Eo, app_assoc. reflexivity.
  Qed.
  Definition enough (num : option Z) (f : @bfile D) : bool :=
    match num with Some n => (n <=? Z.of_nat (List.length (b_buf f)))%Z | None => false end.
  (** Reading can be satisfied: the stream is complete, or long enough. *)
  Definition satisfiable (num : option Z) (rest : list N) : Prop :=
    fin = true \/ match num with Some n => (n <= Z.of_nat (List.length rest))%Z | None => False end.
  Lemma fill_ok num del rest : out comp = del ++ rest -> satisfiable num rest ->
    forall fuel f, binv f del -> List.length (b_fd f) < fuel ->
    exists f', brotli_fill process finished chunk fuel num f = Ok f' /\ binv f' del /\
      (finished (b_dec f') = true \/ enough num f' = true) /\ List.length (b_fd f') <= List.length (b_fd f).
  Proof.
    intros Er Sat. induction fuel as [|fuel IH]; intros f I L; [lia|]. cbn [brotli_fill].
    destruct (finished (b_dec f)) eqn:F; [exists f; auto|].
    fold (enough num f). destruct (enough num f) eqn:En; [exists f; auto|].
    destruct (binv_step I F) as (d' & o & Ep & I'). rewrite Ep. cbn [bind fst snd].
    destruct (b_fd f) as [|c fd] eqn:Ef.
    - exfalso. destruct I as (p & H & E & Eo). rewrite Ef, app_nil_r in E. subst p.
      rewrite (Rend H) in F. destruct Sat as [S|S]; [congruence|].
      rewrite Er in Eo. apply app_inv_head in Eo. destruct num as [n|]; [|exact S]. unfold enough in En. rewrite Eo in En. lia.
    - rewrite <- Ef in I'. destruct (IH _ I') as (f' & E1 & I1 & Q1 & L1).
      + cbn [b_fd]. rewrite Ef, skipn_length. cbn [List.length] in *. lia.
      + cbn [b_fd] in L1. rewrite Ef in *. exists f'. split; [exact E1|]. split; [exact I1|]. split; [exact Q1|].
        rewrite skipn_length in L1. lia.
  Qed.
  Lemma buf_prefix f del rest : binv f del -> out comp = del ++ rest -> exists o, rest = b_buf f ++ o.
  Proof.
    intros (p & H & E & Eo) Er. destruct (out_prefix H E) as [o Ho]. exists o.
    rewrite <- Eo, Er, <- app_assoc in Ho. apply app_inv_head in Ho. exact Ho.
  Qed.
  Lemma buf_finished f del rest : binv f del -> out comp = del ++ rest -> finished (b_dec f) = true -> b_buf f = rest.
  Proof.
    intros (p & H & E & Eo) Er F. rewrite (Rfin H F), Er in Eo. apply app_inv_head in Eo. exact Eo.
  Qed.
  (** One read *)
  Lemma read_some n fuel f del rest : out comp = del ++ rest -> satisfiable (Some (Z.of_nat n)) rest ->
    binv f del -> List.length (b_fd f) < fuel ->
    exists f', brotli_read process finished chunk fuel (Some (Z.of_nat n)) f = Ok (firstn n rest, f') /\
      binv f' (del ++ firstn n rest) /\ List.length (b_fd f') <= List.length (b_fd f).
  Proof.
    intros Er Sat I L. destruct (fill_ok Er Sat I L) as (f1 & E1 & I1 & Q & L1). unfold brotli_read. rewrite E1. cbn [bind].
    unfold upto, from, clampZ. assert (Hn : (Z.of_nat n <? 0)%Z = false) by lia. rewrite Hn, Nat2Z.id.
    assert (Ef : firstn n (b_buf f1) = firstn n rest).
    { destruct Q as [F|En]; [rewrite (buf_finished I1 Er F); reflexivity|]. destruct (buf_prefix I1 Er) as [o ->].
      unfold enough in En. rewrite firstn_app. replace (n - List.length (b_buf f1)) with 0 by lia. rewrite app_nil_r. reflexivity. }
    rewrite Ef. eexists. split; [reflexivity|]. split; [|exact L1].
    destruct I1 as (p & H & E & Eo). exists p. cbn. split; [exact H|]. split; [exact E|].
    rewrite <- Ef, <- app_assoc, firstn_skipn. exact Eo.
  Qed.
  Lemma read_none fuel f del rest : out comp = del ++ rest -> fin = true ->
    binv f del -> List.length (b_fd f) < fuel ->
    exists f', brotli_read process finished chunk fuel None f = Ok (rest, f') /\
      binv f' (del ++ rest) /\ List.length (b_fd f') <= List.length (b_fd f).
  Proof.
    intros Er Hf I L. assert (Sat : satisfiable None rest) by (left; exact Hf).
    destruct (fill_ok Er Sat I L) as (f1 & E1 & I1 & [F|En] & L1); [|discriminate]. unfold brotli_read. rewrite E1. cbn [bind].
    rewrite (buf_finished I1 Er F). eexists. split; [reflexivity|]. split; [|exact L1].
    destruct I1 as (p & H & E & Eo). exists p. cbn. split; [exact H|]. split; [exact E|].
    rewrite app_nil_r, <- Er. pose proof (Rfin H F) as ->. reflexivity.
  Qed.
  Lemma reads_ok ns fuel : fin = true -> forall f del rest, out comp = del ++ rest ->
    binv f del -> List.length (b_fd f) < fuel ->
    brotli_reads process finished chunk fuel (map (option_map Z.of_nat) ns) f = Ok (cut ns rest).
  Proof.
    intros Hf. induction ns as [|[n|] ns IH]; intros f del rest Er I L; cbn [map option_map brotli_reads cut]; [reflexivity| |].
    - destruct (@read_some n fuel f del rest Er (or_introl Hf) I L) as (f' & -> & I' & L'). cbn [bind fst snd].
      rewrite (IH f' (del ++ firstn n rest) (skipn n rest)); [reflexivity| |exact I'|lia].
      rewrite <- app_assoc, firstn_skipn. exact Er.
    - destruct (@read_none fuel f del rest Er Hf I L) as (f' & -> & I' & L'). cbn [bind fst snd].
      rewrite (IH f' (del ++ rest) []); [reflexivity| |exact I'|lia]. rewrite app_nil_r. exact Er.
  Qed.
  (** Reading beyond the end of a truncated stream never returns. *)
  Lemma fill_hangs num del rest : fin = false -> out comp = del ++ rest ->
    match num with Some n => (Z.of_nat (List.length rest) < n)%Z | None => True end ->
    forall fuel f, binv f del -> brotli_fill process finished chunk fuel num f = Raise OutOfFuel.
  Proof.
    intros Hf Er Hn. induction fuel as [|fuel IH]; intros f I; [reflexivity|]. cbn [brotli_fill].
    assert (F : finished (b_dec f) = false).
    { destruct (finished (b_dec f)) eqn:F; [|reflexivity]. destruct I as (p & H & _ & _). pose proof (Rfin H F). subst p.
      rewrite (Rend H) in F. congruence. }
    rewrite F. fold (enough num f). assert (En : enough num f = false).
    { destruct num as [n|]; [|reflexivity]. destruct (buf_prefix I Er) as [o ->]. rewrite app_length in Hn. unfold enough. lia. }
    rewrite En. destruct (binv_step I F) as (d' & o & Ep & I'). rewrite Ep. cbn [bind fst snd]. apply IH, I'.
  Qed.
  Lemma reads_prefix ns fuel : forall f del rest, out comp = del ++ rest ->
    fold_right Nat.add 0 ns <= List.length rest -> binv f del -> List.length (b_fd f) < fuel ->
    brotli_reads process finished chunk fuel (map (fun n => Some (Z.of_nat n)) ns) f = Ok (cut (map Some ns) rest).
  Proof.
    induction ns as [|n ns IH]; intros f del rest Er Hs I L; cbn [map brotli_reads cut fold_right] in *; [reflexivity|].
    destruct (@read_some n fuel f del rest Er) as (f' & -> & I' & L'); [right; cbn; lia|exact I|exact L|]. cbn [bind fst snd].
    rewrite (IH f' (del ++ firstn n rest) (skipn n rest)); [reflexivity| | |exact I'|lia].
    - rewrite <- app_assoc, firstn_skipn. exact Er.
    - rewrite skipn_length. lia.
  Qed.
End Reads.
(** A negative number returns the buffer except for its last bytes, and reads nothing. *)
Lemma read_negative {D} (process : D -> list N -> res (D * list N)) finished chunk fuel n f : (n < 0)%Z ->
  brotli_read process finished chunk (S fuel) (Some n) f =
  Ok (firstn (List.length (b_buf f) - Z.to_nat (- n)) (b_buf f),
      mkBF (b_dec f) (skipn (List.length (b_buf f) - Z.to_nat (- n)) (b_buf f)) (b_fd f)).
Proof.
  intros H. unfold brotli_read. cbn [brotli_fill].
  assert (E : (n <=? Z.of_nat (List.length (b_buf f)))%Z = true) by lia. rewrite E.
  assert (E2 : (n <? 0)%Z = true) by lia.
  destruct (finished (b_dec f)); cbn [bind]; unfold upto, from, clampZ; rewrite E2; reflexivity.
Qed.
