(** C79, C80: what the optimizer starts from. *)
From Coq Require Import QArith Sorting.Sorted Permutation.
From Verif Require Import Base KeyboardModel LayoutModel LayoutSpec LayoutProofs CarpalxModel CarpalxSpec CarpalxProofs
  OptModel OptSpec OptProofs OptEnergy OptLayout OptMain PropsOptimize.
Close Scope Q_scope.
Open Scope string_scope.
Open Scope list_scope.
Set Implicit Arguments.
Unset Strict Implicit.

(** * C79: the triads used *)
Section C79.
  Context {A : Type}.
  Implicit Types l : list (A * Z).
  Definition heavier (x y : A * Z) : Prop := (snd y <= snd x)%Z.
  Definition with_count (v : Z) (x : A * Z) : bool := (snd x =? v)%Z.
  Lemma insert_sorted x l : StronglySorted heavier l -> StronglySorted heavier (insert_desc x l).
  Proof.
    induction 1 as [|y l S IH F]; [repeat constructor|]. cbn [insert_desc]. destruct (Z.ltb_spec (snd y) (snd x)).
    - constructor; [constructor; assumption|]. constructor; [unfold heavier; lia|]. eapply Forall_impl; [|exact F]. unfold heavier. intros z. lia.
    - constructor; [exact IH|]. apply Forall_forall. intros z I. apply (Permutation_in _ (insert_desc_perm x l)) in I.
      destruct I as [<-|I]; [assumption|]. rewrite Forall_forall in F. exact (F z I).
  Qed.
  Lemma insert_stable x l v : StronglySorted heavier l ->
    filter (with_count v) (insert_desc x l) = filter (with_count v) (l ++ [x]).
  Proof.
    induction 1 as [|y l S IH F]; [reflexivity|]. cbn [insert_desc app]. destruct (Z.ltb_spec (snd y) (snd x)).
    - change (filter (with_count v) (x :: y :: l) = filter (with_count v) ((y :: l) ++ [x])). rewrite filter_app. cbn [filter].
      destruct (with_count v x) eqn:Ex; [|rewrite app_nil_r; reflexivity].
      assert (E : filter (with_count v) (y :: l) = []).
      { apply Z.eqb_eq in Ex. assert (G : forall q, Forall (fun z => (snd z < v)%Z) q -> filter (with_count v) q = []).
        { induction 1 as [|z q Hz _ IHq]; [reflexivity|]. cbn [filter]. unfold with_count at 1. rewrite (proj2 (Z.eqb_neq _ _)) by lia. exact IHq. }
        apply G. constructor; [lia|]. eapply Forall_impl; [|exact F]. unfold heavier. intros z. lia. }
      cbn [filter] in E. rewrite E. reflexivity.
    - cbn [filter]. rewrite IH. reflexivity.
  Qed.
  Lemma sort_fold l : forall acc, StronglySorted heavier acc ->
    StronglySorted heavier (fold_left (fun acc x => insert_desc x acc) l acc) /\
    forall v, filter (with_count v) (fold_left (fun acc x => insert_desc x acc) l acc) = filter (with_count v) (acc ++ l).
  Proof.
    induction l as [|x l IH]; intros acc S; cbn [fold_left]; [rewrite app_nil_r; auto|].
    destruct (IH _ (insert_sorted x S)) as [S' H]. split; [exact S'|]. intros v. rewrite H, !filter_app, insert_stable by exact S.
    rewrite filter_app, <- app_assoc. f_equal. cbn. destruct (with_count v x); reflexivity.
  Qed.
  (** As many as asked for, or all without a positive limit, ... *)
  Definition asked (limit : Z) (l : list (A * Z)) : nat :=
    if (limit <=? 0)%Z then List.length l else Nat.min (Z.to_nat limit) (List.length l).
  (** ... and none of the others is more frequent; the most frequent come first,
      equally frequent ones in the order of the statistics. *)
  Theorem C79_top limit l : exists rest,
    Permutation l (used_triads limit l ++ rest) /\ List.length (used_triads limit l) = asked limit l /\
    (forall x y, In x (used_triads limit l) -> In y rest -> (snd y <= snd x)%Z) /\
    StronglySorted heavier (used_triads limit l ++ rest) /\
    forall v, filter (with_count v) (used_triads limit l ++ rest) = filter (with_count v) l.
  Proof.
    destruct (@sort_fold l [] (SSorted_nil _)) as [S St]. fold (sort_desc l) in S, St. cbn [app] in St.
    assert (P := Permutation_sym (sort_desc_perm l)). pose proof (Permutation_length P) as Len. unfold used_triads, asked.
    destruct (Z.ltb_spec 0 limit) as [Lt|Le].
    - exists (skipn (Z.to_nat limit) (sort_desc l)). rewrite firstn_skipn, (proj2 (Z.leb_gt _ _) Lt).
      split; [exact P|]. split; [rewrite firstn_length, <- Len; reflexivity|]. split; [|split; [exact S|exact St]].
      rewrite <- (firstn_skipn (Z.to_nat limit) (sort_desc l)) in S. revert S. generalize (firstn (Z.to_nat limit) (sort_desc l)), (skipn (Z.to_nat limit) (sort_desc l)).
      clear. intros a b S x y Ix Iy. induction a as [|z a IH]; [destruct Ix|]. inversion S as [|? ? S' F]; subst. destruct Ix as [->|Ix]; [|exact (IH S' Ix)].
      rewrite Forall_forall in F. apply (F y). apply in_or_app. right. exact Iy.
    - exists []. rewrite app_nil_r, (proj2 (Z.leb_le _ _) Le). split; [exact P|]. split; [symmetry; exact Len|]. split; [intros x y _ []|]. split; [exact S|exact St].
  Qed.
  (** This determines the list. *)
  Lemma sorted_unique (l l' : list (A * Z)) : StronglySorted heavier l -> StronglySorted heavier l' ->
    (forall v, filter (with_count v) l = filter (with_count v) l') -> l = l'.
  Proof.
    revert l'. induction l as [|x l IH]; intros l' S S' H.
    - destruct l' as [|y l']; [reflexivity|]. specialize (H (snd y)). cbn in H. unfold with_count in H at 1. rewrite Z.eqb_refl in H. discriminate H.
    - inversion S as [|? ? Sl Fl]; subst. destruct l' as [|y l'].
      + specialize (H (snd x)). cbn in H. unfold with_count in H at 1. rewrite Z.eqb_refl in H. discriminate H.
      + inversion S' as [|? ? Sl' Fl']; subst. assert (E : snd x = snd y).
        { assert (B : forall (a b : A * Z) q q', (forall v, filter (with_count v) (a :: q) = filter (with_count v) (b :: q')) -> Forall (heavier b) q' -> (snd a <= snd b)%Z).
          { clear. intros a b q q' H F. specialize (H (snd a)). cbn [filter] in H. assert (Wa : with_count (snd a) a = true) by apply Z.eqb_refl. rewrite Wa in H.
            destruct (with_count (snd a) b) eqn:Wb; [apply Z.eqb_eq in Wb; lia|]. assert (I : In a (filter (with_count (snd a)) q')) by (rewrite <- H; left; reflexivity).
            apply filter_In in I as [I _]. rewrite Forall_forall in F. exact (F a I). }
          pose proof (B x y l l' H Fl'). pose proof (B y x l' l (fun v => eq_sym (H v)) Fl). lia. }
        pose proof (H (snd x)) as Hx. cbn [filter] in Hx. assert (Wx : with_count (snd x) x = true) by apply Z.eqb_refl. assert (Wy : with_count (snd x) y = true) by (apply Z.eqb_eq; congruence).
        rewrite Wx, Wy in Hx. injection Hx as Exy _.
        subst y. f_equal. apply IH; [exact Sl|exact Sl'|]. intros v. specialize (H v). cbn [filter] in H. destruct (with_count v x); congruence.
  Qed.
  Theorem C79_unique l used : (exists rest, Permutation l (used ++ rest) /\ StronglySorted heavier (used ++ rest) /\
      forall v, filter (with_count v) (used ++ rest) = filter (with_count v) l) ->
    forall limit, List.length used = asked limit l -> used = used_triads limit l.
  Proof.
    intros (rest & P & S & F) limit Len. destruct (C79_top limit l) as (rest' & P' & Len' & _ & S' & F').
    assert (E : used ++ rest = used_triads limit l ++ rest') by (apply sorted_unique; [exact S|exact S'|intros v; rewrite F, F'; reflexivity]).
    rewrite <- Len' in Len. clear - E Len. revert E Len. generalize (used_triads limit l). induction used as [|x used IH]; intros [|y q] E Len; try discriminate Len; [reflexivity|].
    cbn in E, Len. injection E as -> E. f_equal. apply IH; [exact E|congruence].
  Qed.
End C79.
(** They are what the program optimizes for. *)
Theorem C79_optimize fnm isLetter rnd ord ordm thr (tol : carrier Qnum) fuel g ls kb m stats out e :
  (forall l, Permutation (ord l) l) -> (forall s, Permutation (ordm s) (elems s)) ->
  NoDup kb -> mods_disjoint ls -> Forall (fun l => lmods l <> []) ls ->
  optimize (nm:=Qnum) fnm isLetter rnd ord ordm thr tol fuel g (layout_new ls) kb m stats = Ok (out, e) ->
  forall used, (exists rest, Permutation stats (used ++ rest) /\ StronglySorted heavier (used ++ rest) /\
      forall v, filter (with_count v) (used ++ rest) = filter (with_count v) stats) -> List.length used = asked (g_limit g) stats ->
  exists fin, costs (layout_new ls) (map (fun tv => (fst tv, inject_Z (snd tv))) used) m fin e.
Proof.
  intros Ho Hom Hkb Hd Hm E used Hu Len. rewrite (C79_unique Hu Len).
  destruct (optimize_spec Ho Hom Hkb Hd Hm E) as (bm0 & start & best & fin & e0 & eb & _ & _ & _ & Rs & Rb & Rf & _ & Rel & _ & C0 & Cb & Cf & L0 & Lf).
  exists fin. exact Cf.
Qed.
Example C79_example : used_triads 3%Z [(1, 5%Z); (2, 7%Z); (3, 5%Z); (4, 9%Z); (5, 5%Z)] = [(4, 9%Z); (2, 7%Z); (1, 5%Z)] /\
  asked 3 [(1, 5%Z); (2, 7%Z); (3, 5%Z); (4, 9%Z); (5, 5%Z)] = 3.
Proof. split; reflexivity. Qed.

(** * C80: shuffling *)
(** The program starts from the layout of the user, shuffled by twice as many
    exchanges as there are movable keys if asked to. *)
Theorem C80_start fnm isLetter rnd ord ordm thr (tol : carrier Qnum) fuel g ls kb m stats out e :
  (forall l, Permutation (ord l) l) -> (forall s, Permutation (ordm s) (elems s)) ->
  NoDup kb -> mods_disjoint ls -> Forall (fun l => lmods l <> []) ls ->
  optimize (nm:=Qnum) fnm isLetter rnd ord ordm thr tol fuel g (layout_new ls) kb m stats = Ok (out, e) ->
  exists bm0 start best e0 eb,
    apply_mutations kb (g_mutations g) (initial_map (layout_new ls) kb isLetter) = Ok bm0 /\
    exchanges (if g_randomize g then 2 * List.length (dkeys (initial_map (layout_new ls) kb isLetter)) else 0) bm0 start /\
    relabelled kb best ls (reread out) /\
    costs (layout_new ls) (weighted g stats) m start e0 /\ costs (layout_new ls) (weighted g stats) m best eb /\ (eb <= e0)%Q.
Proof.
  intros Ho Hom Hkb Hd Hm E.
  destruct (optimize_spec Ho Hom Hkb Hd Hm E) as (bm0 & start & best & fin & e0 & eb & Em & Es & _ & Rs & Rb & Rf & _ & Rel & _ & C0 & Cb & Cf & L0 & Lf).
  exists bm0, start, best, e0, eb. split; [exact Em|]. split; [|auto].
  pose proof (mutations_rearranged (proj1 (initial_one ls isLetter Hkb)) Em) as [K _].
  replace (List.length (dkeys (initial_map (layout_new ls) kb isLetter))) with (List.length bm0); [exact Es|].
  rewrite <- K. unfold dkeys. now rewrite map_length.
Qed.
(** A run with shuffling that succeeds *)
Definition g80 : opt_args := mkArgs 2%Z 1 true [] [].
Example C80_example :
  is_ok (optimize (nm:=Qnum) (fun a b => eqb a b) (fun _ => true) (dice [0; 1; 1; 2; 2; 0; 0; 1; 1; 2; 0; 2; 1; 2; 0; 2]) (fun l => l) elems thousandth (1#10000)%Q 5 g80
    (layout_new ls1) ["Cl2"; "Dl3"; "Bl1"] mQ stats1) = true /\
  NoDup ["Cl2"; "Dl3"; "Bl1"] /\ List.length (dkeys (initial_map (layout_new ls1) ["Cl2"; "Dl3"; "Bl1"] (fun _ => true))) = 3.
Proof. split; [vm_compute; reflexivity|]. split; [apply nodupb_NoDup|]; vm_compute; reflexivity. Qed.
Print Assumptions C79_top.
Print Assumptions C79_unique.
Print Assumptions C79_optimize.
Print Assumptions C80_start.
