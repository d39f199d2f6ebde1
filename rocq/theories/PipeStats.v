(** What the workers of text.py:332-377 compute. *)
From Coq Require Import Permutation.
From Verif Require Import Base LayoutModel WriterModel StatsModel StatsSpec StatsProofs MergeProofs StatsAll TextModel.
Set Implicit Arguments.
Open Scope list_scope.

Section Worker.
  Context {L : Type}.
  Variable fm : list (string * (direction * finger)).
  Variable letter : N -> bool.
  Variable lay : layout.
  Variable kb : list string.
  (** [apply (funcs, [item])] *)
  Variable texts : L -> res (list text).

  (** text.py:352-362: one text with a fresh writer and fresh statistics *)
  Definition text_stats (t : text) : res allstats :=
    do s0 <- makeCombined kb;
    let '(es, f, _) := type_text fm lay None (prepare t) in
    match f with
    | Done => foldM (stats_process fm letter lay) (map ev_obj es) s0
    | Exn e => Raise e
    end.
  (** text.py:345-365: all texts of one item *)
  Definition work_item (c : allstats) (l : L) : res allstats :=
    do ts <- texts l; foldM (fun c t => do s <- text_stats t; Ok (stats_update c s)) ts c.
  (** text.py:335-377 for the items a worker gets; Raise: line 377 *)
  Definition work (acc : list L) : res allstats := do c <- makeCombined kb; foldM work_item acc c.
  (** The exception raised by an item, if any (it does not depend on the
      statistics collected before). *)
  Definition item_fails (l : L) : option exn :=
    match (do ts <- texts l; mapM text_stats ts) with Ok _ => None | Raise e => Some e end.
  (** text.py:367, 370-374: whether [combined] is sent and dumped *)
  Definition has_texts (acc : list L) : bool :=
    existsb (fun l => match texts l with Ok (_ :: _) => true | _ => false end) acc.

  (** Statistics of all texts of an item. *)
  Definition item_stats (l : L) : list allstats :=
    match (do ts <- texts l; mapM text_stats ts) with Ok ss => ss | Raise _ => [] end.

  Lemma work_item_good c l : item_fails l = None -> work_item c l = Ok (fold_left stats_update (item_stats l) c).
  Proof.
    unfold item_fails, item_stats, work_item. destruct (texts l) as [ts|]; cbn [bind]; [|discriminate].
    destruct (mapM text_stats ts) as [ss|] eqn:E; [|discriminate]. intros _. apply mapM_Ok_inv in E.
    revert c; induction E as [|t s ts ss Et E IH]; intros c; cbn [foldM fold_left]; [reflexivity|]. rewrite Et. cbn [bind]. apply IH.
  Qed.
  Lemma work_item_bad c l e : item_fails l = Some e -> exists e', work_item c l = Raise e'.
  Proof.
    unfold item_fails, work_item. destruct (texts l) as [ts|e']; cbn [bind]; [|eauto].
    destruct (mapM text_stats ts) as [|e'] eqn:E; [discriminate|]. intros _. clear l. revert c E; induction ts as [|t ts IH]; intros c E; cbn [mapM foldM] in *; [discriminate|].
    destruct (text_stats t) as [s|]; cbn [bind] in *; [|eauto]. destruct (mapM text_stats ts); cbn [bind] in E; [discriminate|]. apply IH. exact E.
  Qed.
  Lemma work_good acc c0 : makeCombined kb = Ok c0 -> Forall (fun l => item_fails l = None) acc ->
    work acc = Ok (fold_left stats_update (flat_map item_stats acc) c0).
  Proof.
    unfold work. intros -> F. cbn [bind]. revert c0. induction F as [|l acc Hl F IH]; intros c0; cbn [foldM flat_map fold_left]; [reflexivity|].
    rewrite work_item_good by exact Hl. cbn [bind]. rewrite IH. rewrite fold_left_app. reflexivity.
  Qed.
  Lemma item_stats_wf l : Forall stats_wf (item_stats l).
  Proof.
    unfold item_stats. destruct (texts l) as [ts|]; cbn [bind]; [|constructor]. destruct (mapM text_stats ts) as [ss|] eqn:E; [|constructor].
    apply mapM_Ok_inv in E. induction E as [|t s ts ss Et E IH]; constructor; [|exact IH]. unfold text_stats in Et.
    destruct (makeCombined kb) as [s0|] eqn:E0; cbn [bind] in Et; [|discriminate].
    destruct (type_text fm lay None (prepare t)) as [[es f] la]. destruct f; [|discriminate].
    eapply processed_wf; [|exact Et]. apply (makeCombined_wf _ E0).
  Qed.
  Lemma items_wf acc : Forall stats_wf (flat_map item_stats acc).
  Proof. induction acc as [|l acc IH]; cbn; [constructor|]. apply Forall_app. split; [apply item_stats_wf|exact IH]. Qed.
  Lemma no_texts_no_stats acc : has_texts acc = false -> flat_map item_stats acc = [].
  Proof.
    induction acc as [|l acc IH]; cbn; [reflexivity|]. intros Hx. apply orb_false_iff in Hx as [H1 H2]. rewrite IH by exact H2. rewrite app_nil_r.
    unfold item_stats. destruct (texts l) as [[|t ts]|]; cbn; [reflexivity|discriminate|reflexivity].
  Qed.
  Lemma osum_flat {A B} (f : B -> option Z) (g : A -> list B) l : osum f (flat_map g l) = osum (fun x => osum f (g x)) l.
  Proof. induction l as [|x l IH]; cbn [flat_map]; [reflexivity|]. rewrite osum_app, osum_cons, IH. reflexivity. Qed.

  (** The dumped objects of any distribution of the items to workers, merged. *)
  Lemma dump_combined outs objs c x : Forall (Forall (fun l => item_fails l = None)) outs ->
    mapM work (filter has_texts outs) = Ok objs -> combine_stats kb objs = Ok c -> is_finger x = false ->
    recorded c x = osum (fun l => osum (fun s => recorded s x) (item_stats l)) (concat outs).
  Proof.
    intros F Eo Ec Hx. assert (Hc : exists c0, makeCombined kb = Ok c0).
    { unfold combine_stats in Ec. destruct (makeCombined kb); [eauto|discriminate]. }
    destruct Hc as [c0 E0]. destruct (makeCombined_wf _ E0) as [W0 R0].
    assert (G : Forall stats_wf objs /\ osum (fun s => recorded s x) objs = osum (fun l => osum (fun s => recorded s x) (item_stats l)) (concat outs)).
    { clear Ec c. revert objs Eo. induction F as [|acc outs Ha F IH]; intros objs Eo; cbn [filter concat] in *.
      - inversion Eo; subst. split; [constructor|reflexivity].
      - rewrite osum_app, <- (osum_flat (fun s => recorded s x) item_stats acc). destruct (has_texts acc) eqn:Et.
        + cbn [mapM] in Eo. rewrite (work_good E0 Ha) in Eo. cbn [bind] in Eo.
          destruct (mapM work (filter has_texts outs)) as [objs'|]; cbn [bind] in Eo; [|discriminate]. inversion Eo; subst.
          destruct (IH objs' eq_refl) as [Hw Hs]. split; [constructor; [|exact Hw]; apply fold_wf; [exact W0|apply items_wf]|].
          rewrite osum_cons, Hs, fold_recorded by (apply items_wf || exact Hx). rewrite R0. reflexivity.
        + rewrite (no_texts_no_stats _ Et). destruct (IH objs Eo) as [Hw Hs]. split; [exact Hw|exact Hs]. }
    destruct G as [Gw Gs]. rewrite (@combine_recorded kb objs c x Gw Ec Hx). exact Gs.
  Qed.
  Lemma dump_ok c0 outs : makeCombined kb = Ok c0 -> Forall (Forall (fun l => item_fails l = None)) outs ->
    exists objs c, mapM work (filter has_texts outs) = Ok objs /\ combine_stats kb objs = Ok c.
  Proof.
    intros E0 F. assert (G : exists objs, mapM work (filter has_texts outs) = Ok objs).
    { induction F as [|acc outs Ha F [objs IH]]; cbn [filter]; [eexists; reflexivity|]. destruct (has_texts acc); [|eauto].
      cbn [mapM]. rewrite (work_good E0 Ha). cbn [bind]. rewrite IH. eexists; reflexivity. }
    destruct G as [objs G]. exists objs. unfold combine_stats. rewrite E0. cbn [bind]. eauto.
  Qed.
End Worker.
