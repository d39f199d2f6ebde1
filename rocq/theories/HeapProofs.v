From Verif Require Import Base HeapModel HeapSpec StatsModel.
Set Implicit Arguments.
Open Scope list_scope.

Section Proofs.
  Context {K : Type} `{EqDec K}.
  Notation heap := (heap (K := K)).

  (** Reference entries are the same in both heaps. *)
  Definition ref_same (h h' : heap) : Prop := forall x k r, entry h x k = Some (VRef r) <-> entry h' x k = Some (VRef r).
  Lemma ref_same_refl h : ref_same h h.
  Proof. intros x k r. tauto. Qed.
  Lemma ref_same_trans h1 h2 h3 : ref_same h1 h2 -> ref_same h2 h3 -> ref_same h1 h3.
  Proof. intros A B x k r. rewrite (A x k r). apply B. Qed.
  Lemma ref_same_sym h1 h2 : ref_same h1 h2 -> ref_same h2 h1.
  Proof. intros A x k r. symmetry. apply A. Qed.
  Lemma reach_ref_same h h' a x : ref_same h h' -> reach h a x -> reach h' a x.
  Proof. intros R. induction 1 as [|x k r _ IH E]; [constructor|]. econstructor 2; [exact IH|]. apply R, E. Qed.
  Lemma nested_present_ref_same n h h' a b : ref_same h h' -> nested_present n h a b -> nested_present n h' a b.
  Proof.
    intros R. revert a b; induction n as [|n IH]; intros a b; cbn [nested_present]; [auto|].
    intros P k r E. apply R in E. destruct (P k r E) as (ra & Ea & Hp). exists ra. split; [apply R, Ea|]. apply IH, Hp.
  Qed.

  Lemma entry_set h a d x k : entry (dset h a d) x k = if eqb x a then dget d k else entry h x k.
  Proof. unfold entry. rewrite dget_dset. destruct (eqb x a); reflexivity. Qed.

  (** Setting a number at a key that holds no reference. *)
  Lemma set_int_ref_same h a ad k z : dget h a = Some ad -> (forall r, dget ad k <> Some (VRef r)) ->
    ref_same h (dset h a (dset ad k (VInt z))).
  Proof.
    intros E Hn x k' r. rewrite entry_set. destruct (eqb_spec x a) as [Ex|Ex]; [|tauto].
    unfold entry. rewrite Ex, E, dget_dset. destruct (eqb_spec k' k) as [Ek|Ek]; [|tauto].
    rewrite Ek. split; [intros A; exfalso; exact (Hn r A)|discriminate].
  Qed.

  Lemma reach_trans h a b x : reach h a b -> reach h b x -> reach h a x.
  Proof. intros A. induction 1 as [|x k r _ IH E]; [exact A|]. econstructor 2; eassumption. Qed.

  Lemma heap_wf_set h a ad k v : heap_wf h -> dget h a = Some ad -> heap_wf (dset h a (dset ad k v)).
  Proof.
    intros Hw E x d. rewrite dget_dset. destruct (eqb x a); [|apply Hw]. intros X; inversion X; subst. apply dset_wf, (Hw _ _ E).
  Qed.

  Lemma upd_frame n : forall h a b h', heap_wf h -> nested_present n h a b -> numeric h b -> disjoint h a b ->
    updHeap n h a b = Ok h' ->
    heap_wf h' /\ ref_same h h' /\ forall x, ~ reach h a x -> dget h' x = dget h x.
  Proof.
    induction n as [|n IH]; intros h a b h' Hw Hp Hl Hdis E; cbn [updHeap] in E; [discriminate|].
    destruct (dget h b) as [bd|] eqn:Eb; cbn [of_opt bind] in E; [|discriminate].
    assert (Hent : forall k v, In (k, v) bd -> entry h b k = Some v).
    { intros k v Hi. unfold entry. rewrite Eb. apply dget_In_iff; [exact (Hw _ _ Eb)|exact Hi]. }
    assert (G : forall l hc h', (forall kv, In kv l -> In kv bd) -> heap_wf hc ->
       ref_same h hc -> (forall x, ~ reach h a x -> dget hc x = dget h x) ->
       foldM (updItem (updHeap n) a) l hc = Ok h' ->
       heap_wf h' /\ ref_same h h' /\ forall x, ~ reach h a x -> dget h' x = dget h x).
    { clear E h'. induction l as [|[k v] l IHl]; intros hc h' Hl2 Hwc Hr Hf E; cbn [foldM] in E; [inversion E; subst; auto|].
      destruct (updItem (updHeap n) a hc (k, v)) as [h1|] eqn:E1; cbn [bind] in E; [|discriminate].
      assert (Hv : entry h b k = Some v) by (apply Hent, Hl2; left; reflexivity).
      enough (S : heap_wf h1 /\ ref_same hc h1 /\ forall x, ~ reach h a x -> dget h1 x = dget hc x).
      { destruct S as (S1 & S2 & S3). apply (IHl h1 h'); auto.
        - intros kv Hkv. apply Hl2. right. exact Hkv.
        - eapply ref_same_trans; eassumption.
        - intros x Hx. rewrite S3 by exact Hx. apply Hf, Hx. }
      unfold updItem in E1. destruct (dget hc a) as [ad|] eqn:Ea; cbn [of_opt bind fst snd] in E1; [|discriminate].
      assert (Hset : forall z, (forall r, dget ad k <> Some (VRef r)) ->
        heap_wf (dset hc a (dset ad k (VInt z))) /\ ref_same hc (dset hc a (dset ad k (VInt z))) /\
        forall x, ~ reach h a x -> dget (dset hc a (dset ad k (VInt z))) x = dget hc x).
      { intros z Hn. split; [apply heap_wf_set; assumption|]. split; [apply set_int_ref_same; assumption|].
        intros x Hx. rewrite dget_dset. destruct (eqb_spec x a) as [Ex|]; [|reflexivity]. exfalso. apply Hx. rewrite Ex. constructor. }
      destruct (dget ad k) as [x|] eqn:Ek.
      - unfold updExisting in E1. destruct v as [z|r|].
        + destruct x as [y| |]; try discriminate. inversion E1; subst. apply Hset. discriminate.
        + destruct x as [|ra|]; try discriminate.
          assert (Hra : entry h a k = Some (VRef ra)) by (apply Hr; unfold entry; rewrite Ea; exact Ek).
          cbn [nested_present] in Hp. destruct (Hp _ _ Hv) as (ra' & Hra' & Hpr). assert (ra' = ra) as -> by congruence.
          assert (Rra : reach h a ra) by (econstructor 2; [constructor|exact Hra]).
          assert (Rr : reach h b r) by (econstructor 2; [constructor|exact Hv]).
          apply IH in E1 as (I1 & I2 & I3); auto.
          * split; [exact I1|]. split; [exact I2|]. intros x Hx. apply I3. intros Rx. apply Hx.
            eapply reach_trans; [exact Rra|]. eapply reach_ref_same; [apply ref_same_sym, Hr|exact Rx].
          * eapply nested_present_ref_same; eassumption.
          * intros x k' Rx. assert (Rbx : reach h b x).
            { eapply reach_trans; [exact Rr|]. eapply reach_ref_same; [apply ref_same_sym, Hr|exact Rx]. }
            unfold entry. rewrite Hf; [apply (Hl x k' Rbx)|]. intros Rax. exact (Hdis _ Rax Rbx).
          * intros x Rx Rx'. eapply Hdis; (eapply reach_trans; [|eapply reach_ref_same; [apply ref_same_sym, Hr|]]); eassumption.
        + discriminate.
      - destruct v as [z|r|].
        + inversion E1; subst. apply Hset. discriminate.
        + exfalso. destruct (Hp _ _ Hv) as (ra & Hra & _). apply Hr in Hra. unfold entry in Hra. rewrite Ea in Hra. congruence.
        + exfalso. apply (Hl b k); [constructor|exact Hv]. }
    apply (G bd h h'); auto using ref_same_refl.
  Qed.

  Theorem upd_argument n h a b h' : heap_wf h -> nested_present n h a b -> numeric h b -> disjoint h a b ->
    updHeap n h a b = Ok h' ->
    (forall x, reach h b x -> dget h' x = dget h x) /\ disjoint h' a b /\ (forall x, reach h' b x <-> reach h b x) /\ heap_wf h'.
  Proof.
    intros Hw Hp Hl Hd E. destruct (upd_frame n Hw Hp Hl Hd E) as (W & R & F). split.
    - intros x Hx. apply F. intros Ha. exact (Hd x Ha Hx).
    - split; [|split; [|exact W]].
      + intros x Ra Rb. eapply Hd; eapply reach_ref_same; try (apply ref_same_sym, R); eassumption.
      + intros x. split; apply reach_ref_same; [apply ref_same_sym|]; exact R.
  Qed.

  (** Later updates of [a] from any other dictionary. *)
  Theorem upd_later n m h a b c h1 h2 : heap_wf h -> nested_present n h a b -> numeric h b -> disjoint h a b ->
    updHeap n h a b = Ok h1 ->
    nested_present m h1 a c -> numeric h1 c -> disjoint h1 a c ->
    updHeap m h1 a c = Ok h2 ->
    forall x, reach h b x -> dget h2 x = dget h x.
  Proof.
    intros Hw Hp Hl Hd E1 Hp2 Hl2 Hd2 E2 x Hx.
    destruct (upd_argument n Hw Hp Hl Hd E1) as (A & D & R & W).
    destruct (upd_frame m W Hp2 Hl2 Hd2 E2) as (_ & _ & F).
    rewrite F; [apply A, Hx|]. intros Ra. apply (D x Ra). apply R, Hx.
  Qed.

  (** * The typed version used in StatsModel.v *)
  Notation ints := (map (fun kz : K * Z => (fst kz, VInt (snd kz)))).
  Lemma dget_ints (c : list (K * Z)) k : dget (ints c) k = option_map VInt (dget c k).
  Proof. induction c as [|[k' z] c IH]; cbn; [reflexivity|]. destruct (eqb k k'); [reflexivity|exact IH]. Qed.
  Lemma dset_ints (c : list (K * Z)) k z : dset (ints c) k (VInt z) = ints (dset c k z).
  Proof. induction c as [|[k' y] c IH]; cbn; [reflexivity|]. destruct (eqb k k'); cbn; [reflexivity|]. rewrite IH. reflexivity. Qed.

  Lemma upd_counter n h a b ca cb : a <> b -> is_counter h a ca -> is_counter h b cb ->
    exists h', updHeap (S n) h a b = Ok h' /\ is_counter h' a (updateCounter ca cb) /\ forall x, x <> a -> dget h' x = dget h x.
  Proof.
    unfold is_counter. intros Hab Ha Hb. cbn [updHeap]. rewrite Hb. cbn [of_opt bind]. clear Hb.
    revert h ca Ha. induction cb as [|[k z] cb IH]; intros h ca Ha; cbn [map foldM].
    - exists h. auto.
    - unfold updItem at 1. rewrite Ha. cbn [of_opt bind fst snd]. rewrite dget_ints.
      unfold updateCounter, updateDictOp. cbn [fold_left fst snd]. destruct (dget ca k) as [y|]; cbn [option_map].
      + unfold updExisting. cbn [bind]. rewrite dset_ints.
        destruct (IH (dset h a (ints (dset ca k (y + z)%Z))) (dset ca k (y + z)%Z)) as (h' & E & C & F); [apply dget_dset_same|].
        exists h'. split; [exact E|]. split; [exact C|]. intros x Hx. rewrite F by exact Hx. rewrite dget_dset. destruct (eqb_spec x a); congruence.
      + cbn [bind]. rewrite dset_ints.
        destruct (IH (dset h a (ints (dset ca k z))) (dset ca k z)) as (h' & E & C & F); [apply dget_dset_same|].
        exists h'. split; [exact E|]. split; [exact C|]. intros x Hx. rewrite F by exact Hx. rewrite dget_dset. destruct (eqb_spec x a); congruence.
  Qed.

  (** Nested dictionaries all of whose outer keys exist in [a]. *)
  Lemma nested_get h a addrs c k i : is_nested h a addrs c -> dget c k = Some i ->
    exists r, dget (combine (map fst c) (map VRef addrs)) k = Some (VRef r) /\ In r addrs /\ is_counter h r i.
  Proof.
    intros [_ F]. clear - F. revert c F. induction addrs as [|r addrs IH]; intros [|[k' i'] c] F Ek; inversion F; subst; cbn in *; [discriminate|].
    destruct (eqb k k'); [inversion Ek; subst; eauto|]. destruct (IH c) as (r' & A & B & C); eauto.
  Qed.
  Lemma upd_nested_item h a addrs c k i r : is_nested h a addrs c -> NoDup addrs -> dict_wf c -> ~ In a addrs ->
    dget c k = Some i -> dget (combine (map fst c) (map VRef addrs)) k = Some (VRef r) ->
    forall h' i', (forall x, x <> r -> dget h' x = dget h x) -> is_counter h' r i' -> r <> a ->
    is_nested h' a addrs (dset c k i').
  Proof.
    intros [Ha F] Hnd Hwf Hna Ek Er h' i' Hfr Hc Hra. split.
    - rewrite Hfr by congruence. rewrite Ha. f_equal. f_equal. change (map fst c) with (dkeys c). change (map fst (dset c k i')) with (dkeys (dset c k i')).
      rewrite dkeys_dset. unfold dhas. rewrite Ek. reflexivity.
    - clear - Hnd Ek Er Hfr Hc F. revert c F Ek Er. induction addrs as [|x addrs IH]; intros [|[k' j] c] F Ek Er; inversion F; subst; cbn in *; [discriminate|].
      inversion Hnd; subst. destruct (eqb_spec k k') as [E|E].
      + inversion Er; subst. constructor; [exact Hc|].
        match goal with Hx : Forall2 _ addrs c |- _ => revert Hx end. intros Hx.
        assert (Hn : forall y, In y addrs -> y <> r) by (intros y Hy ->; contradiction).
        clear - Hx Hn Hfr. induction Hx as [|y kc l l' Hy Hx IHx]; constructor; [|apply IHx; intros z Hz; apply Hn; right; exact Hz].
        unfold is_counter in *. rewrite Hfr; [exact Hy|]. apply Hn. left. reflexivity.
      + constructor.
        * cbn [snd] in *. unfold is_counter in *. rewrite Hfr; [assumption|]. intros ->.
          assert (In r addrs); [|contradiction]. clear - Er. revert c Er. induction addrs as [|y l IH]; intros [|[q w] c] Er; cbn in Er; try discriminate.
          destruct (eqb k q); [inversion Er; left; reflexivity|right; eapply IH, Er].
        * apply IH; auto.
  Qed.

  Lemma upd_nested n h a addrs ca b baddrs cb : is_nested h a addrs ca -> is_nested h b baddrs cb ->
    NoDup addrs -> dict_wf ca -> ~ In a addrs -> (forall x, In x addrs -> ~ In x baddrs) -> ~ In a baddrs -> ~ In b addrs -> a <> b ->
    incl (dkeys cb) (dkeys ca) ->
    exists h', updHeap (S (S n)) h a b = Ok h' /\ is_nested h' a addrs (updateNested ca cb) /\
      forall x, ~ In x addrs -> dget h' x = dget h x.
  Proof.
    intros Na Nb Hnd Hwf Hna Hdis Hab Hba Hne Hincl. remember (S n) as n1. cbn [updHeap]. destruct Nb as [Eb Fb]. rewrite Eb. cbn [of_opt bind]. clear Eb.
    revert h ca baddrs Na Fb Hwf Hincl Hdis Hab. induction cb as [|[k i] cb IH]; intros h ca baddrs Na Fb Hwf Hincl Hdis Hab.
    - cbn. exists h. auto.
    - inversion Fb as [|r kc baddrs' cb' Hr Fb']; subst. cbn [snd] in Hr. cbn [map combine foldM fst].
      assert (Hk : In k (dkeys ca)) by (apply Hincl; left; reflexivity). apply dget_key in Hk as [ai Hai].
      destruct (nested_get k Na Hai) as (ra & Era & Hra & Cra).
      assert (Ea : dget h a = Some (combine (map fst ca) (map VRef addrs))) by apply Na.
      unfold updItem at 1. rewrite Ea. cbn [of_opt bind fst snd]. rewrite Era. cbn [updExisting].
      assert (Hrar : ra <> r) by (intros ->; apply (Hdis r Hra); left; reflexivity).
      destruct (upd_counter n Hrar Cra Hr) as (h1 & E1 & C1 & F1). rewrite E1. cbn [bind].
      assert (N1 : is_nested h1 a addrs (dset ca k (updateCounter ai i))).
      { eapply upd_nested_item; try eassumption. intros ->. contradiction. }
      unfold updateNested, updateDictOp. cbn [fold_left fst snd]. rewrite Hai. fold (updateDictOp updateCounter (dset ca k (updateCounter ai i)) cb).
      destruct (IH h1 (dset ca k (updateCounter ai i)) baddrs') as (h2 & E2 & C2 & F2).
      + exact N1.
      + assert (Hn : forall y, In y baddrs' -> y <> ra) by (intros y Hy ->; apply (Hdis ra Hra); right; exact Hy).
        clear - Fb' F1 Hn. induction Fb' as [|y kc l l' Hy Hx IHx]; constructor; [|apply IHx; intros z Hz; apply Hn; right; exact Hz].
        unfold is_counter in *. rewrite F1; [exact Hy|]. apply Hn. left. reflexivity.
      + apply dset_wf, Hwf.
      + intros x Hx. apply In_dkeys_dset. right. apply Hincl. right. exact Hx.
      + intros x Hx Hx'. apply (Hdis x Hx). right. exact Hx'.
      + intros Hx. apply Hab. right. exact Hx.
      + exists h2. split; [exact E2|]. split; [exact C2|]. intros x Hx. rewrite F2 by exact Hx. apply F1. intros ->. contradiction.
  Qed.
End Proofs.
