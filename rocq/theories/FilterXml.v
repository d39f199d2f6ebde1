(** Proofs for C48. *)
From Coq Require Import Sorting.Sorted.
From Verif Require Import Base TextModel FilterModel FilterSpec.
Open Scope string_scope.
Open Scope list_scope.
Set Implicit Arguments.
Unset Strict Implicit.

Section DnodeInd.
  Variable P : dnode -> Prop.
  Hypothesis HE : forall name cs, Forall P cs -> P (DElem name cs).
  Hypothesis HT : forall t, P (DText t).
  Hypothesis HO : P DOther.
  Fixpoint dnode_ind' (n : dnode) : P n :=
    match n with
    | DElem name cs =>
        HE name ((fix all l : Forall P l := match l with [] => Forall_nil P | c :: l' => Forall_cons c (dnode_ind' c) (all l') end) cs)
    | DText t => HT t
    | DOther => HO
    end.
End DnodeInd.

(** The positions of the elements with this name *)
Section Positions.
  Variable name : string.
  Fixpoint epos (n : dnode) : list (list nat) :=
    match n with
    | DElem nm cs => (if eqb nm name then [[]] else []) ++
        (fix go i l := match l with [] => [] | c :: l' => map (cons i) (epos c) ++ go (S i) l' end) 0 cs
    | _ => []
    end.
  Fixpoint dpos (i : nat) (l : list dnode) : list (list nat) :=
    match l with [] => [] | c :: l' => map (cons i) (epos c) ++ dpos (S i) l' end.
  Lemma epos_elem nm cs : epos (DElem nm cs) = (if eqb nm name then [[]] else []) ++ dpos 0 cs.
  Proof.
    reflexivity.
  Qed.
  Definition found (n : dnode) : Prop := Forall2 (fun p cs => at_pos n p = Some (DElem name cs)) (epos n) (elements name n).
  Lemma Forall2_impl {A B} (R S : A -> B -> Prop) l m : (forall a b, R a b -> S a b) -> Forall2 R l m -> Forall2 S l m.
  Proof. intros H. induction 1; constructor; auto. Qed.
  Lemma Forall2_map_l {A B C} (g : A -> C) (R : C -> B -> Prop) l m : Forall2 (fun a b => R (g a) b) l m -> Forall2 R (map g l) m.
  Proof. induction 1; constructor; auto. Qed.
  Lemma dpos_shift l : forall i, dpos (S i) l = map (fun p => match p with [] => [] | j :: q => S j :: q end) (dpos i l).
  Proof.
    induction l as [|c l IH]; intros i; [reflexivity|]. cbn [dpos]. rewrite map_app, map_map, IH. reflexivity.
  Qed.
  Lemma dpos_ge l : forall i p, In p (dpos i l) -> exists j q, p = j :: q /\ i <= j.
  Proof.
    induction l as [|c l IH]; intros i p; cbn [dpos]; [intros []|]. rewrite in_app_iff, in_map_iff. intros [(q & <- & _)|H]; [eauto|].
    destruct (IH _ _ H) as (j & q & -> & L). exists j, q. split; [reflexivity|lia].
  Qed.
  Lemma found_list l : Forall found l -> Forall2 (fun p cs => is_elem l name p cs) (dpos 0 l) (byTagName name l).
  Proof.
    induction 1 as [|c l Hc F IH]; [constructor|]. cbn [dpos byTagName flat_map]. apply Forall2_app.
    - apply Forall2_map_l. eapply Forall2_impl; [|exact Hc]. intros p cs E. exact E.
    - rewrite dpos_shift. apply Forall2_map_l. eapply Forall2_impl; [|exact IH]. intros [|j q] cs E; [discriminate|]. exact E.
  Qed.
  Lemma all_found n : found n.
  Proof.
    induction n as [nm cs IH| |] using dnode_ind'; [|constructor|constructor]. unfold found. rewrite epos_elem. cbn [elements].
    apply Forall2_app.
    - destruct (eqb_spec nm name) as [->|]; [|constructor]. constructor; [reflexivity|constructor].
    - eapply Forall2_impl; [|exact (found_list IH)]. intros [|j q] ds E; [discriminate|]. exact E.
  Qed.
  Lemma dpos_complete_aux l : Forall (fun c => forall p cs, at_pos c p = Some (DElem name cs) -> In p (epos c)) l ->
    forall i j q c cs, nth_error l j = Some c -> at_pos c q = Some (DElem name cs) -> In ((i + j) :: q) (dpos i l).
  Proof.
    induction 1 as [|d l Hd F IH]; intros i j q c cs Ej Eq; [destruct j; discriminate|]. cbn [dpos]. apply in_or_app. destruct j as [|j].
    - left. injection Ej as ->. rewrite Nat.add_0_r. apply in_map. eapply Hd, Eq.
    - right. rewrite Nat.add_succ_r. change (S (i + j)) with (S i + j). eapply IH; eassumption.
  Qed.
  Lemma epos_complete n : forall p cs, at_pos n p = Some (DElem name cs) -> In p (epos n).
  Proof.
    induction n as [nm ks IH| |] using dnode_ind'; intros [|i p] cs E; try discriminate.
    - injection E as -> _. rewrite epos_elem, eqb_refl. left. reflexivity.
    - rewrite epos_elem. apply in_or_app. right. cbn [at_pos] in E. destruct (nth_error ks i) as [c|] eqn:Ei; [|discriminate].
      change i with (0 + i). eapply dpos_complete_aux; eassumption.
  Qed.
  Lemma dpos_complete doc p cs : is_elem doc name p cs -> In p (dpos 0 doc).
  Proof.
    unfold is_elem. destruct p as [|i p]; [discriminate|]. cbn [in_doc]. destruct (nth_error doc i) as [c|] eqn:Ei; [|discriminate].
    intros E. change i with (0 + i). eapply dpos_complete_aux; [|exact Ei|exact E]. apply Forall_forall. intros d _. apply epos_complete.
  Qed.
  Lemma sorted_app {A} (R : A -> A -> Prop) l m : StronglySorted R l -> StronglySorted R m ->
    (forall x y, In x l -> In y m -> R x y) -> StronglySorted R (l ++ m).
  Proof.
    induction 1 as [|x l Sl IH Fx]; intros Sm H; [exact Sm|]. cbn. constructor.
    - apply IH; [exact Sm|]. intros; apply H; [right|]; assumption.
    - apply Forall_app. split; [exact Fx|]. apply Forall_forall. intros y Hy. apply H; [left; reflexivity|exact Hy].
  Qed.
  Lemma sorted_map {A B} (R : A -> A -> Prop) (S : B -> B -> Prop) g l : (forall a b, R a b -> S (g a) (g b)) ->
    StronglySorted R l -> StronglySorted S (map g l).
  Proof.
    intros H. induction 1 as [|x l Sl IH Fx]; cbn; constructor; [exact IH|]. apply Forall_map. eapply Forall_impl; [|exact Fx]. auto.
  Qed.
  Lemma dpos_sorted_aux l : Forall (fun c => StronglySorted before (epos c)) l -> forall i, StronglySorted before (dpos i l).
  Proof.
    induction 1 as [|c l Hc F IH]; intros i; cbn [dpos]; [constructor|]. apply sorted_app; [|apply IH|].
    - eapply sorted_map; [|exact Hc]. intros a b K. apply before_below, K.
    - intros x y Hx Hy. apply in_map_iff in Hx as (p & <- & _). apply dpos_ge in Hy as (j & q & -> & L). apply before_here. lia.
  Qed.
  Lemma epos_sorted n : StronglySorted before (epos n).
  Proof.
    induction n as [nm ks IH| |] using dnode_ind'; [|constructor|constructor]. rewrite epos_elem. apply sorted_app.
    - destruct (eqb nm name); repeat constructor.
    - apply dpos_sorted_aux, IH.
    - intros x y Hx Hy. destruct (eqb nm name); [|destruct Hx]. destruct Hx as [<-|[]]. apply dpos_ge in Hy as (j & q & -> & _).
      apply before_prefix. discriminate.
  Qed.
  Lemma dpos_sorted doc : StronglySorted before (dpos 0 doc).
  Proof. apply dpos_sorted_aux, Forall_forall. intros c _. apply epos_sorted. Qed.
  Lemma dpos_elem doc : Forall2 (fun p cs => is_elem doc name p cs) (dpos 0 doc) (byTagName name doc).
  Proof. apply found_list, Forall_forall. intros c _. apply all_found. Qed.
  Lemma dpos_In doc p : In p (dpos 0 doc) <-> exists cs, is_elem doc name p cs.
  Proof.
    split; [|intros [cs H]; eapply dpos_complete, H]. intros H. pose proof (dpos_elem doc) as F.
    induction F as [|q cs l m Hq F IH]; [destruct H|]. destruct H as [<-|H]; [eauto|exact (IH H)].
  Qed.
End Positions.

(** Elements with their positions *)
Definition query (name : string) (doc : list dnode) : list (list nat * list dnode) := combine (dpos name 0 doc) (byTagName name doc).
Lemma Forall2_len {A B} (R : A -> B -> Prop) l m : Forall2 R l m -> List.length l = List.length m.
Proof. induction 1; cbn; congruence. Qed.
Lemma map_fst_combine {A B} (l : list A) (m : list B) : List.length l = List.length m -> map fst (combine l m) = l.
Proof. revert m. induction l as [|x l IH]; intros [|y m] H; try discriminate; [reflexivity|]. cbn in *. f_equal. apply IH. lia. Qed.
Lemma map_snd_combine {A B} (l : list A) (m : list B) : List.length l = List.length m -> map snd (combine l m) = m.
Proof. revert m. induction l as [|x l IH]; intros [|y m] H; try discriminate; [reflexivity|]. cbn in *. f_equal. apply IH. lia. Qed.
Lemma Forall2_combine {A B} (R : A -> B -> Prop) l m : Forall2 R l m -> forall a b, In (a, b) (combine l m) -> R a b.
Proof. induction 1 as [|x y l m H F IH]; cbn; [intros ? ? []|]. intros a b [[= <- <-]|K]; [exact H|exact (IH _ _ K)]. Qed.
Lemma query_fst name doc : map fst (query name doc) = dpos name 0 doc.
Proof. apply map_fst_combine. exact (Forall2_len (dpos_elem name doc)). Qed.
Lemma query_snd name doc : map snd (query name doc) = byTagName name doc.
Proof. apply map_snd_combine. exact (Forall2_len (dpos_elem name doc)). Qed.
Lemma query_elem name doc p cs : In (p, cs) (query name doc) -> is_elem doc name p cs.
Proof. apply (Forall2_combine (dpos_elem name doc)). Qed.
Lemma query_In name doc p cs : is_elem doc name p cs -> In (p, cs) (query name doc).
Proof.
  intros H. assert (K : In p (map fst (query name doc))) by (rewrite query_fst; eapply dpos_complete, H).
  apply in_map_iff in K as ([q ds] & E & K). cbn in E. subst q. pose proof (query_elem K) as H'.
  unfold is_elem in *. rewrite H in H'. injection H' as ->. exact K.
Qed.

(** * Queries below queries *)
Lemma at_pos_app n p q : at_pos n (p ++ q) = match at_pos n p with Some m => at_pos m q | None => None end.
Proof.
  revert n. induction p as [|i p IH]; intros n; [reflexivity|]. cbn [app at_pos]. destruct n as [nm cs| |]; try reflexivity.
  destruct (nth_error cs i); [apply IH|reflexivity].
Qed.
Lemma in_doc_app doc p q nm cs : in_doc doc p = Some (DElem nm cs) -> q <> [] -> in_doc doc (p ++ q) = in_doc cs q.
Proof.
  destruct p as [|i p]; [discriminate|]. cbn [in_doc app]. destruct (nth_error doc i) as [c|]; [|discriminate]. intros E N.
  rewrite at_pos_app, E. destruct q; [congruence|]. reflexivity.
Qed.
Lemma before_app p a b : before a b -> before (p ++ a) (p ++ b).
Proof. induction p; [auto|]. intros H. apply before_below. auto. Qed.
Lemma before_apart p q : before p q -> ~ inside p q -> forall r s, before (p ++ r) (q ++ s).
Proof.
  induction 1 as [p Hp|i j p q L|i p q H IH]; intros N r s; cbn.
  - exfalso. apply N. exists p. auto.
  - apply before_here, L.
  - apply before_below, IH. intros (t & Ht & ->). apply N. exists t. auto.
Qed.
Lemma before_irrefl p : ~ before p p.
Proof. induction p as [|i p IH]; intros H; inversion H; subst; [congruence|lia|contradiction]. Qed.
Definition below (name : string) (L : list (list nat * list dnode)) : list (list nat * list dnode) :=
  flat_map (fun pc => map (fun qd => (fst pc ++ fst qd, snd qd)) (query name (snd pc))) L.
Definition placed (doc : list dnode) (L : list (list nat * list dnode)) : Prop :=
  forall p cs, In (p, cs) L -> exists nm, is_elem doc nm p cs.
Definition apart (L : list (list nat * list dnode)) : Prop := forall p q, In p (map fst L) -> In q (map fst L) -> ~ inside p q.
Lemma below_snd name L : map snd (below name L) = flat_map (byTagName name) (map snd L).
Proof.
  unfold below. induction L as [|[p cs] L IH]; [reflexivity|]. cbn [flat_map map snd fst]. rewrite map_app, IH, map_map. f_equal.
  cbn. rewrite <- query_snd. reflexivity.
Qed.
Lemma query_nonempty name doc q ds : In (q, ds) (query name doc) -> q <> [].
Proof. intros H. apply query_elem in H. intros ->. discriminate. Qed.
Lemma below_placed name doc L : placed doc L -> forall q ds, In (q, ds) (below name L) -> is_elem doc name q ds.
Proof.
  intros P q ds. unfold below. rewrite in_flat_map. intros ([p cs] & Hp & Hq). apply in_map_iff in Hq as ([r es] & E & Hr).
  cbn in E, Hr. injection E as <- <-. destruct (P _ _ Hp) as [nm H]. unfold is_elem in *.
  rewrite (in_doc_app H (query_nonempty Hr)). exact (query_elem Hr).
Qed.
Lemma below_In name doc L q : placed doc L ->
  (In q (map fst (below name L)) <-> exists p, In p (map fst L) /\ inside p q /\ exists ds, is_elem doc name q ds).
Proof.
  intros P. split.
  - intros H. apply in_map_iff in H as ([q' ds] & E & H). cbn in E. subst q'. pose proof (below_placed P H) as Hq.
    unfold below in H. apply in_flat_map in H as ([p cs] & Hp & H). apply in_map_iff in H as ([r es] & E & Hr). cbn in E, Hr.
    injection E as <- <-. exists p. split; [apply in_map_iff; exists (p, cs); auto|]. split; [|eauto].
    exists r. split; [exact (query_nonempty Hr)|reflexivity].
  - intros (p & Hp & (r & Nr & ->) & ds & Hq). apply in_map_iff in Hp as ([p' cs] & E & Hp). cbn in E. subst p'.
    destruct (P _ _ Hp) as [nm H]. apply in_map_iff. exists (p ++ r, ds). split; [reflexivity|]. apply in_flat_map.
    exists (p, cs). split; [exact Hp|]. apply in_map_iff. exists (r, ds). split; [reflexivity|]. apply query_In. unfold is_elem in *.
    rewrite (in_doc_app H Nr) in Hq. exact Hq.
Qed.
Lemma sorted_flat_map {A B} (f : A -> list B) (R : A -> A -> Prop) (S : B -> B -> Prop) l :
  StronglySorted R l -> (forall x, In x l -> StronglySorted S (f x)) ->
  (forall x y, In x l -> In y l -> R x y -> forall a b, In a (f x) -> In b (f y) -> S a b) -> StronglySorted S (flat_map f l).
Proof.
  induction 1 as [|x l Sl IH Fx]; intros H1 H2; cbn [flat_map]; [constructor|]. apply sorted_app.
  - apply H1. left. reflexivity.
  - apply IH; [intros; apply H1; right; assumption|]. intros y z Hy Hz. apply H2; right; assumption.
  - intros a b Ha Hb. apply in_flat_map in Hb as (y & Hy & Hb). rewrite Forall_forall in Fx.
    eapply (H2 x y); eauto; [left; reflexivity|right; exact Hy].
Qed.
Lemma map_flat_map {A B C} (g : B -> C) (f : A -> list B) l : map g (flat_map f l) = flat_map (fun x => map g (f x)) l.
Proof. induction l as [|x l IH]; cbn; [reflexivity|]. rewrite map_app, IH. reflexivity. Qed.
Lemma below_sorted name L : StronglySorted before (map fst L) -> apart L -> StronglySorted before (map fst (below name L)).
Proof.
  intros S A. unfold below. rewrite map_flat_map.
  assert (S' : StronglySorted (fun a b => before (fst a) (fst b)) L).
  { clear A. induction L as [|x L IH]; [constructor|]. inversion S as [|? ? S1 F]; subst. constructor; [exact (IH S1)|].
    exact (proj1 (Forall_map _ _ _) F). }
  eapply sorted_flat_map; [exact S'| |].
  - intros [p cs] _. cbn [fst snd]. rewrite map_map. cbn.
    replace (map (fun x => p ++ fst x) (query name cs)) with (map (app p) (map fst (query name cs))) by (rewrite map_map; reflexivity).
    rewrite query_fst. eapply sorted_map; [|apply dpos_sorted]. intros; apply before_app; assumption.
  - intros [p cs] [q ds] Hp Hq B a b Ha Hb. cbn [fst snd] in *. rewrite map_map in Ha, Hb.
    apply in_map_iff in Ha as (x & <- & _). apply in_map_iff in Hb as (y & <- & _). cbn. apply before_apart; [exact B|].
    apply A; apply in_map_iff; [exists (p, cs)|exists (q, ds)]; auto.
Qed.
Lemma flat_map_map {A B C} (g : A -> B) (f : B -> list C) l : flat_map f (map g l) = flat_map (fun x => f (g x)) l.
Proof. induction l as [|x l IH]; cbn; [reflexivity|]. rewrite IH. reflexivity. Qed.
Lemma flat_map_flat_map {A B C} (g : A -> list B) (f : B -> list C) l : flat_map f (flat_map g l) = flat_map (fun x => flat_map f (g x)) l.
Proof. induction l as [|x l IH]; cbn; [reflexivity|]. rewrite flat_map_app, IH. reflexivity. Qed.

(** * TEI *)
Section Tei.
  Variable doc : list dnode.
  Definition q_text := query "text" doc.
  Definition q_body := below "body" q_text.
  Definition q_p := below "p" q_body.
  Lemma p_text : placed doc q_text.
  Proof. intros p cs H. exists "text". exact (query_elem H). Qed.
  Lemma p_body : placed doc q_body.
  Proof. intros p cs H. exists "body". exact (below_placed p_text H). Qed.
  Lemma p_p : placed doc q_p.
  Proof. intros p cs H. exists "p". exact (below_placed p_body H). Qed.
  Lemma q_p_In g : In g (map fst q_p) <-> paragraph doc g.
  Proof.
    unfold q_p. rewrite (below_In _ _ p_body). unfold q_body. split.
    - intros (b & Hb & Ibg & gs & Hg). apply (below_In _ _ p_text) in Hb as (t & Ht & Itb & bs & Hb).
      unfold q_text in Ht. rewrite query_fst, dpos_In in Ht. destruct Ht as [ts Ht]. exists t, b, ts, bs, gs. auto.
    - intros (t & b & ts & bs & gs & Ht & Hb & Hg & Itb & Ibg). exists b. split; [|eauto].
      apply (below_In _ _ p_text). exists t. split; [|eauto]. unfold q_text. rewrite query_fst, dpos_In. eauto.
  Qed.
  Lemma tei2_groups : tei2_lines doc = flat_map (fun pc => map dtext (byTagName "s" (snd pc)) ++ [[]]) q_p.
  Proof.
    unfold tei2_lines. rewrite <- (flat_map_map snd (fun p => map dtext (byTagName "s" p) ++ [[]])).
    unfold q_p, q_body, q_text. rewrite !below_snd, query_snd, !flat_map_flat_map. reflexivity.
  Qed.
  Definition sent (pc : list nat * list dnode) : list (list nat) := map (app (fst pc)) (dpos "s" 0 (snd pc)).
  Lemma sent_sorted pc : StronglySorted before (sent pc).
  Proof. unfold sent. eapply sorted_map; [|apply dpos_sorted]. intros; apply before_app; assumption. Qed.
  Lemma sent_In p cs s : In (p, cs) q_p -> (In s (sent (p, cs)) <-> inside p s /\ exists ds, is_elem doc "s" s ds).
  Proof.
    intros Hp. assert (P1 : placed doc [(p, cs)]). { intros p' cs' [[= <- <-]|[]]. exact (p_p Hp). }
    pose proof (below_In "s" s P1) as B. unfold below in B. cbn [flat_map] in B. rewrite app_nil_r, map_map in B. cbn in B.
    unfold sent. cbn [fst snd]. rewrite <- query_fst, map_map. rewrite B. split.
    - intros (q & [<-|[]] & I & H). auto.
    - intros [I H]. exists p. auto.
  Qed.
  Lemma sent_text p cs : In (p, cs) q_p -> map (text_at doc) (sent (p, cs)) = map dtext (byTagName "s" cs).
  Proof.
    intros Hp. destruct (p_p Hp) as [nm H]. unfold sent. cbn [fst snd]. rewrite map_map.
    pose proof (dpos_elem "s" cs) as F. induction F as [|q ds l m Hq F IH]; [reflexivity|]. cbn [map]. f_equal; [|exact IH].
    unfold text_at. unfold is_elem in *. rewrite (in_doc_app H) by (intros ->; discriminate). rewrite Hq. reflexivity.
  Qed.
  Definition groups : list (list nat * list (list nat)) := map (fun pc => (fst pc, sent pc)) q_p.
  Lemma groups_fst : map fst groups = map fst q_p.
  Proof. unfold groups. rewrite map_map. reflexivity. Qed.
  Lemma groups_text : tei2_lines doc = flat_map (fun g => map (text_at doc) (snd g) ++ [[]]) groups.
  Proof.
    rewrite tei2_groups. unfold groups. rewrite flat_map_map. cbn [snd].
    assert (G : forall l, incl l q_p -> flat_map (fun pc => map dtext (byTagName "s" (snd pc)) ++ [[]]) l =
      flat_map (fun x => map (text_at doc) (sent x) ++ [[]]) l).
    { induction l as [|[p cs] l IH]; intros Hi; [reflexivity|]. cbn [flat_map snd].
      rewrite (sent_text (p:=p) (cs:=cs)) by (apply Hi; left; reflexivity). f_equal. apply IH. intros x Hx. apply Hi. right. exact Hx. }
    apply G, incl_refl.
  Qed.
  Lemma apart_text : not_nested doc "text" -> apart q_text.
  Proof.
    intros N p q Hp Hq. unfold q_text in *. rewrite query_fst, dpos_In in Hp, Hq. destruct Hp as [cs Hp], Hq as [ds Hq]. eapply N; eassumption.
  Qed.
  Lemma apart_body : not_nested doc "body" -> apart q_body.
  Proof.
    intros N p q Hp Hq. apply (below_In _ _ p_text) in Hp as (_ & _ & _ & cs & Hp). apply (below_In _ _ p_text) in Hq as (_ & _ & _ & ds & Hq).
    eapply N; eassumption.
  Qed.
  Lemma groups_sorted : not_nested doc "text" -> not_nested doc "body" -> StronglySorted before (map fst groups).
  Proof.
    intros N1 N2. rewrite groups_fst. apply below_sorted; [|exact (apart_body N2)]. apply below_sorted; [|exact (apart_text N1)].
    unfold q_text. rewrite query_fst. apply dpos_sorted.
  Qed.
  Lemma sentences_sorted : not_nested doc "text" -> not_nested doc "body" -> not_nested doc "p" ->
    StronglySorted before (flat_map snd groups).
  Proof.
    intros N1 N2 N3. pose proof (groups_sorted N1 N2) as S.
    assert (S' : StronglySorted (fun a b => before (fst a) (fst b)) groups).
    { clear -S. induction groups as [|x L IH]; [constructor|]. inversion S as [|? ? S1 F]; subst. constructor; [exact (IH S1)|].
      exact (proj1 (Forall_map _ _ _) F). }
    eapply sorted_flat_map; [exact S'| |].
    - intros [p ss] H. apply in_map_iff in H as (pc & [= <- <-] & _). apply sent_sorted.
    - intros [p ss] [q us] Hp Hq B a b Ha Hb. cbn [fst snd] in *.
      apply in_map_iff in Hp as ([p' cs] & [= <- <-] & Hp). apply in_map_iff in Hq as ([q' ds] & [= <- <-] & Hq). cbn [fst] in *.
      unfold sent in Ha, Hb. cbn [fst snd] in *. apply in_map_iff in Ha as (x & <- & _). apply in_map_iff in Hb as (y & <- & _).
      apply before_apart; [exact B|]. exact (N3 _ _ _ _ (below_placed p_body Hp) (below_placed p_body Hq)).
  Qed.
End Tei.

(** * Stripping *)
Section StripP.
  Variable isspace : N -> bool.
  Lemma lstrip_spec t : exists l, t = l ++ lstrip isspace t /\ Forall (fun c => isspace c = true) l /\
    (forall c s', lstrip isspace t = c :: s' -> isspace c = false).
  Proof.
    induction t as [|c t (l & E & F & H)]; [exists []; repeat split; [constructor|discriminate]|]. cbn [lstrip].
    destruct (isspace c) eqn:Ec.
    - exists (c :: l). cbn. rewrite <- E. split; [reflexivity|]. split; [constructor; assumption|exact H].
    - exists []. split; [reflexivity|]. split; [constructor|]. intros d s' [= <- _]. exact Ec.
  Qed.
  Lemma strip_trimmed t : trimmed isspace t (strip isspace t).
  Proof.
    unfold strip. destruct (lstrip_spec t) as (l & E & Fl & Hl). set (u := lstrip isspace t) in *. clearbody u.
    destruct (lstrip_spec (rev u)) as (r & E' & Fr & Hr). set (v := lstrip isspace (rev u)) in *. clearbody v.
    assert (Eu : u = rev v ++ rev r) by (rewrite <- (rev_involutive u), E', rev_app_distr; reflexivity).
    split; [|split].
    - exists l, (rev r). rewrite <- Eu. split; [exact E|]. split; [exact Fl|]. apply Forall_rev, Fr.
    - intros c s' Ec. rewrite Ec in Eu. cbn in Eu. eapply Hl, Eu.
    - intros c s' Ec. apply (f_equal (@rev N)) in Ec. rewrite rev_involutive, rev_app_distr in Ec. cbn in Ec. eapply Hr, Ec.
  Qed.
End StripP.
