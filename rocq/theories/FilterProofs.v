(** Proofs for C41-C45. *)
From Coq Require Import ZifyNat.
From Verif Require Import Base TextModel FilterModel FilterSpec.
Open Scope string_scope.
Open Scope list_scope.
Set Implicit Arguments.
Unset Strict Implicit.
Ltac Zify.zify_post_hook ::= Z.div_mod_to_equations.

(** * C41 *)
Lemma mapChars_charwise m t :
  charwise (fun c p => (dget m c = Some p) \/ (dget m c = None /\ p = [c])) t (mapChars m t).
Proof.
  induction t as [|c t (ps & F & E)]; [exists []; split; [constructor|reflexivity]|].
  exists ((match dget m c with Some y => y | None => [c] end) :: ps). split.
  - constructor; [|exact F]. destruct (dget m c); auto.
  - cbn [mapChars flat_map concat]. unfold mapChars in E. rewrite E. reflexivity.
Qed.
Lemma mapChars_app m t u : mapChars m (t ++ u) = mapChars m t ++ mapChars m u.
Proof. apply flat_map_app. Qed.
Lemma mapChars_id m t : (forall c, In c t -> dget m c = None) -> mapChars m t = t.
Proof.
  induction t as [|c t IH]; intros H; [reflexivity|]. cbn [mapChars flat_map]. rewrite H by (left; reflexivity).
  cbn [app]. f_equal. apply IH. intros; apply H; right; assumption.
Qed.
Lemma mapChars_closed m t : (forall c p, dget m c = Some p -> forall x, In x p -> dget m x = None) ->
  forall x, In x (mapChars m t) -> dget m x = None.
Proof.
  intros K x. unfold mapChars. rewrite in_flat_map. intros (c & _ & Hx).
  change (In x (match dget m c with Some y => y | None => [c] end)) in Hx. destruct (dget m c) as [p|] eqn:E.
  - exact (K _ _ E _ Hx).
  - destruct Hx as [<-|[]]. exact E.
Qed.
Lemma charMap_closed c p : dget charMap c = Some p -> forall x, In x p -> dget charMap x = None.
Proof.
  assert (B : forallb (fun kp => forallb (fun x => match dget charMap x with None => true | _ => false end) (snd kp)) charMap = true)
    by (vm_compute; reflexivity).
  intros E x Hx. apply dget_In in E. rewrite forallb_forall in B. specialize (B _ E). rewrite forallb_forall in B.
  specialize (B _ Hx). destruct (dget charMap x); [discriminate|reflexivity].
Qed.

(** * C42 *)
Lemma contains_nil {A} (x : A) p : ~ contains (x :: p) [].
Proof. intros (l & r & E). destruct l; discriminate. Qed.
Lemma contains_cons {A} (p : list A) c t : p <> [] -> contains p (c :: t) <-> (exists r, c :: t = p ++ r) \/ contains p t.
Proof.
  intros N. split.
  - intros ([|x l] & r & E); [left; eauto|]. injection E as -> ->. right. exists l, r. reflexivity.
  - intros [[r E]|(l & r & ->)]; [exists [], r; exact E|exists (c :: l), r; reflexivity].
Qed.
Lemma crlf_cr t : replace_crlf (CR :: t) =
  match t with LF :: t' => LF :: replace_crlf t' | _ => CR :: replace_crlf t end.
Proof. reflexivity. Qed.
Lemma crlf_crlf t : replace_crlf (CR :: LF :: t) = LF :: replace_crlf t.
Proof. reflexivity. Qed.
Lemma crlf_not_lf t : (forall t', t <> LF :: t') -> replace_crlf (CR :: t) = CR :: replace_crlf t.
Proof.
  intros H. rewrite crlf_cr. destruct t as [|c t]; [reflexivity|]. destruct (N.eq_dec c LF) as [->|Nc]; [exfalso; eapply H; reflexivity|].
  destruct c as [|p]; [reflexivity|]. do 4 (destruct p as [p|p|]; try reflexivity). congruence.
Qed.
Lemma crlf_other c t : c <> CR -> replace_crlf (c :: t) = c :: replace_crlf t.
Proof. intros Nc. destruct c as [|p]; [reflexivity|]. do 4 (destruct p as [p|p|]; try reflexivity). congruence. Qed.
(** The three ways a text can start *)
Lemma crlf_ind (P : text -> Prop) : P [] ->
  (forall t, P t -> P (CR :: LF :: t)) ->
  (forall t, (forall t', t <> LF :: t') -> P t -> P (CR :: t)) ->
  (forall c t, c <> CR -> P t -> P (c :: t)) -> forall t, P t.
Proof.
  intros H0 H1 H2 H3 t. remember (List.length t) as n eqn:E. assert (L : List.length t <= n) by lia. clear E.
  revert t L. induction n as [|n IH]; intros [|c t] L; cbn in L; try lia; try exact H0.
  destruct (N.eq_dec c CR) as [->|Nc]; [|apply H3; [exact Nc|apply IH; lia]].
  destruct t as [|d t]; [apply H2; [discriminate|exact H0]|]. cbn in L.
  destruct (N.eq_dec d LF) as [->|Nd]; [apply H1, IH; lia|]. apply H2; [intros t'; congruence|]. apply IH. cbn; lia.
Qed.
Lemma crlf_head_lf t r : replace_crlf t = LF :: r -> (exists t', t = LF :: t') \/ (exists t', t = CR :: LF :: t').
Proof.
  induction t using crlf_ind; [discriminate|eauto|rewrite crlf_not_lf by assumption; discriminate|].
  rewrite crlf_other by assumption. intros [= -> _]. eauto.
Qed.
Lemma crlf_exact t : contains [CR; LF] (replace_crlf t) <-> contains [CR; CR; LF] t.
Proof.
  induction t as [|t IH|t Nl IH|c t Nc IH] using crlf_ind.
  - split; intros H; exfalso; revert H; apply contains_nil.
  - rewrite crlf_crlf. rewrite !contains_cons by discriminate. rewrite IH. split.
    + intros [[r E]|H]; [discriminate|tauto].
    + intros [[r E]|[[r E]|H]]; [discriminate|discriminate|tauto].
  - rewrite crlf_not_lf by assumption. rewrite !contains_cons by discriminate. rewrite IH. split.
    + intros [[r E]|H]; [|tauto]. left. injection E as E. apply crlf_head_lf in E as [[t' ->]|[t' ->]]; [exfalso; eapply Nl; reflexivity|].
      exists t'. reflexivity.
    + intros [[r E]|H]; [|tauto]. left. injection E as ->. cbn [app]. rewrite crlf_crlf. exists (replace_crlf r). reflexivity.
  - rewrite crlf_other by assumption. rewrite !contains_cons by discriminate. rewrite IH. split.
    + intros [[r E]|H]; [|tauto]. injection E as E _. congruence.
    + intros [[r E]|H]; [|tauto]. injection E as E _. congruence.
Qed.
(** Pieces between the line ends *)
Lemma joinL_cons sep p q ps : joinL sep ((p ++ q) :: ps) = p ++ joinL sep (q :: ps).
Proof. cbn. destruct ps; [reflexivity|]. rewrite <- !app_assoc. reflexivity. Qed.
Lemma crlf_pieces t : exists ps, ps <> [] /\ Forall (fun p => ~ contains [CR; LF] p) ps /\
  t = joinL [CR; LF] ps /\ replace_crlf t = joinL [LF] ps.
Proof.
  induction t as [|t (ps & Ne & F & E1 & E2)|t Nl (ps & Ne & F & E1 & E2)|c t Nc (ps & Ne & F & E1 & E2)] using crlf_ind.
  - exists [[]]. split; [discriminate|]. split; [|auto]. constructor; [apply contains_nil|constructor].
  - exists ([] :: ps). split; [discriminate|]. split; [constructor; [apply contains_nil|exact F]|].
    rewrite crlf_crlf. destruct ps as [|p ps]; [congruence|]. split; [rewrite E1|rewrite E2]; reflexivity.
  - destruct ps as [|p ps]; [congruence|]. exists ((CR :: p) :: ps). split; [discriminate|].
    change (CR :: p) with ([CR] ++ p). rewrite !joinL_cons, <- E1, <- E2, crlf_not_lf by assumption.
    split; [|auto]. apply Forall_cons_iff in F as [Fp F']. constructor; [|exact F'].
    cbn [app]. rewrite contains_cons by discriminate. intros [[r Er]|H]; [|contradiction]. injection Er as ->.
    destruct ps as [|q ps]; [apply (Nl r)|apply (Nl (r ++ [CR; LF] ++ joinL [CR; LF] (q :: ps)))]; rewrite E1; reflexivity.
  - destruct ps as [|p ps]; [congruence|]. exists ((c :: p) :: ps). split; [discriminate|].
    change (c :: p) with ([c] ++ p). rewrite !joinL_cons, <- E1, <- E2, crlf_other by assumption.
    split; [|auto]. apply Forall_cons_iff in F as [Fp F']. constructor; [|exact F'].
    cbn [app]. rewrite contains_cons by discriminate. intros [[r Er]|H]; [|contradiction]. injection Er as -> _. congruence.
Qed.

(** * C43 *)
Section Chains.
  Context {A : Type}.
  Lemma gchain_nil {B C} (f : B -> gen C) e : gchain f [] e = ([], e).
  Proof. reflexivity. Qed.
  Lemma gchain_app {B C} (f : B -> gen C) l1 l2 e :
    gchain f (l1 ++ l2) e = match gchain f l1 None with
                            | (ys, None) => (ys ++ fst (gchain f l2 e), snd (gchain f l2 e))
                            | (ys, Some ex) => (ys, Some ex) end.
  Proof.
    induction l1 as [|x l1 IH]; cbn [app gchain].
    - destruct (gchain f l2 e); reflexivity.
    - destruct (f x) as [ys [ex|]]; [reflexivity|]. rewrite IH. destruct (gchain f l1 None) as [zs [ex|]].
      + reflexivity.
      + destruct (gchain f l2 e). cbn [fst snd]. rewrite app_assoc. reflexivity.
  Qed.
  Lemma gchain_unit {B} (l : list B) e : gchain (fun x => ([x], None)) l e = (l, e).
  Proof. induction l as [|x l IH]; cbn [gchain]; [reflexivity|]. rewrite IH. reflexivity. Qed.
  Lemma gchain_ext {B C} (f g : B -> gen C) l e : (forall x, f x = g x) -> gchain f l e = gchain g l e.
  Proof. intros E. induction l as [|x l IH]; cbn [gchain]; [reflexivity|]. rewrite E, IH. reflexivity. Qed.
  Lemma gchain_one {B C} (f : B -> gen C) x : gchain f [x] None = f x.
  Proof. cbn. destruct (f x) as [ys [ex|]]; [reflexivity|]. rewrite app_nil_r. reflexivity. Qed.
  Lemma gchain_raise {B C} (f : B -> gen C) l ex : snd (gchain f l (Some ex)) <> None.
  Proof.
    induction l as [|x l IH]; cbn [gchain]; [discriminate|]. destruct (f x) as [ys [e|]]; [discriminate|].
    destruct (gchain f l (Some ex)). exact IH.
  Qed.
  Lemma gchain_assoc {B C D'} (f : B -> gen C) (g : C -> gen D') l e :
    gchain g (fst (gchain f l e)) (snd (gchain f l e)) = gchain (fun x => gchain g (fst (f x)) (snd (f x))) l e.
  Proof.
    induction l as [|x l IH]; cbn [gchain]; [reflexivity|].
    destruct (f x) as [ys [ex|]]; cbn [fst snd].
    - destruct (gchain g ys (Some ex)) as [zs [e'|]] eqn:E; [reflexivity|].
      exfalso. pose proof (@gchain_raise _ _ g ys ex) as R. rewrite E in R. apply R. reflexivity.
    - destruct (gchain f l e) as [zs e']. cbn [fst snd] in *. rewrite gchain_app, IH.
      destruct (gchain g ys None) as [us [ex|]]; [reflexivity|].
      destruct (gchain (fun x0 => gchain g (fst (f x0)) (snd (f x0))) l e). reflexivity.
  Qed.
  Lemma apply_items (fs : list (A -> gen A)) : forall l e,
    apply_gen fs (l, e) = gchain (fun x => apply_gen fs ([x], None)) l e.
  Proof.
    induction fs as [|f fs IH]; intros l e; cbn [apply_gen fst snd].
    - symmetry. apply gchain_unit.
    - rewrite (surjective_pairing (gchain f l e)), IH, gchain_assoc. apply gchain_ext. intros x.
      rewrite gchain_one, (surjective_pairing (f x)) at 1. cbn [fst snd]. symmetry. rewrite (surjective_pairing (f x)) at 1. apply IH.
  Qed.
  Lemma apply_app (fs gs : list (A -> gen A)) : forall g, apply_gen (fs ++ gs) g = apply_gen gs (apply_gen fs g).
  Proof. induction fs as [|f fs IH]; intros g; cbn [app apply_gen]; auto. Qed.
  Lemma gchain_sound {B C} (f : B -> gen C) l : forall e y, In y (fst (gchain f l e)) -> exists x, In x l /\ In y (fst (f x)).
  Proof.
    induction l as [|x l IH]; intros e y; cbn [gchain]; [intros []|].
    destruct (f x) as [ys [ex|]] eqn:E; cbn [fst].
    - intros H. exists x. rewrite E. split; [left; reflexivity|exact H].
    - destruct (gchain f l e) as [zs e'] eqn:G. cbn [fst]. rewrite in_app_iff. intros [H|H].
      + exists x. rewrite E. split; [left; reflexivity|exact H].
      + destruct (IH e y) as (x' & Hx & Hy); [rewrite G; exact H|]. exists x'. split; [right; exact Hx|exact Hy].
  Qed.
  Lemma gchain_complete {B C} (f : B -> gen C) l : forall e, snd (gchain f l e) = None ->
    e = None /\ Forall (fun x => snd (f x) = None) l /\ fst (gchain f l e) = flat_map (fun x => fst (f x)) l.
  Proof.
    induction l as [|x l IH]; intros e; cbn [gchain]; [cbn; auto|].
    destruct (f x) as [ys [ex|]] eqn:E; [discriminate|]. destruct (gchain f l e) as [zs e'] eqn:G. cbn [fst snd].
    intros ->. destruct (IH e) as (-> & F & Ez); [rewrite G; reflexivity|]. rewrite G in Ez. cbn [fst] in Ez.
    split; [reflexivity|]. split; [constructor; [rewrite E; reflexivity|exact F]|]. cbn [flat_map]. rewrite E. cbn [fst]. f_equal. exact Ez.
  Qed.
  Lemma apply_sound (fs : list (A -> gen A)) : forall g y, In y (fst (apply_gen fs g)) -> exists x, In x (fst g) /\ path fs x y.
  Proof.
    induction fs as [|f fs IH]; intros g y; cbn [apply_gen]; [intros H; exists y; split; [exact H|constructor]|].
    intros H. destruct (IH _ _ H) as (z & Hz & Pz). destruct (gchain_sound Hz) as (x & Hx & Hy).
    exists x. split; [exact Hx|]. econstructor; eauto.
  Qed.
  Lemma apply_complete (fs : list (A -> gen A)) : forall g, snd (apply_gen fs g) = None ->
    snd g = None /\ forall x y, In x (fst g) -> path fs x y -> In y (fst (apply_gen fs g)).
  Proof.
    induction fs as [|f fs IH]; intros g; cbn [apply_gen].
    - intros E. split; [exact E|]. intros x y H P. inversion P; subst. exact H.
    - intros E. destruct (IH _ E) as [E1 C]. destruct (gchain_complete E1) as (E0 & F & G). split; [exact E0|].
      intros x y Hx P. inversion P as [|f' fs' x' z y' Hz Pz]; subst. eapply C; [|exact Pz]. rewrite G.
      apply in_flat_map. eauto.
  Qed.
  Lemma apply_total (fs : list (A -> list A)) : forall l,
    apply_gen (map (fun f x => (f x, None)) fs) (l, None) = (apply_filters fs l, None).
  Proof.
    induction fs as [|f fs IH]; intros l; cbn [map apply_gen apply_filters]; [reflexivity|]. rewrite <- IH. f_equal.
    cbn [fst snd]. induction l as [|x l IHl]; cbn [gchain flat_map]; [reflexivity|]. rewrite IHl. reflexivity.
  Qed.
End Chains.

(** * C44 *)
Lemma lstrip0_nz c l : c <> 0%N -> lstrip0 (c :: l) = c :: l.
Proof. destruct c; [congruence|reflexivity]. Qed.
Lemma lstrip0_zeros k l : lstrip0 (repeat 0%N k ++ l) = lstrip0 l.
Proof. induction k; [reflexivity|exact IHk]. Qed.
Lemma rev_repeat {A} (x : A) k : rev (repeat x k) = repeat x k.
Proof.
  induction k as [|k IH]; [reflexivity|]. cbn [repeat rev]. rewrite IH. clear. induction k; [reflexivity|]. cbn. f_equal. exact IHk.
Qed.
Lemma rstrip0_digits ds k : ds <> [] -> Forall octal_digit ds -> rstrip0 (ds ++ repeat 0%N k) = ds.
Proof.
  intros Ne F. unfold rstrip0. rewrite rev_app_distr, rev_repeat, lstrip0_zeros.
  destruct (rev ds) as [|c l] eqn:E; [apply (f_equal (@rev N)) in E; rewrite rev_involutive in E; contradiction|].
  assert (Hc : octal_digit c). { rewrite Forall_forall in F. apply F, in_rev. rewrite E. left. reflexivity. }
  rewrite lstrip0_nz by (unfold octal_digit in Hc; lia). rewrite <- E, rev_involutive. reflexivity.
Qed.
Lemma firstn_exact {A} n (l r : list A) : List.length l = n -> firstn n (l ++ r) = l.
Proof. intros <-. rewrite firstn_app, Nat.sub_diag, firstn_all, firstn_O, app_nil_r. reflexivity. Qed.
Lemma skipn_exact {A} n (l r : list A) : List.length l = n -> skipn n (l ++ r) = r.
Proof. intros <-. rewrite skipn_app, Nat.sub_diag, skipn_all, skipn_O. reflexivity. Qed.
Lemma field_slice {A} (h v : list A) k : field_at h k v -> slice h k (k + List.length v) = v.
Proof.
  intros (pre & post & -> & L). unfold slice. rewrite (skipn_exact _ L). rewrite Nat.add_comm, Nat.add_sub. now apply firstn_exact.
Qed.
Lemma slice_field {A} (h v : list A) k n : 0 < List.length v -> List.length v = n -> slice h k (k + n) = v -> field_at h k v.
Proof.
  intros P L E. unfold slice in E. replace (k + n - k) with n in E by lia. exists (firstn k h), (skipn n (skipn k h)). rewrite <- E at 1. rewrite (firstn_skipn n), firstn_skipn.
  split; [reflexivity|]. apply firstn_length_le. destruct (Nat.le_gt_cases k (List.length h)) as [K|K]; [exact K|]. rewrite skipn_all2, firstn_nil in E by lia. subst v. cbn in P. lia.
Qed.
Lemma magic_not_empty h : slice h 256 264 = tar_magic -> eqb h [] || eqb h emptyblock = false.
Proof.
  intros M. apply orb_false_iff. split; apply eqb_neq; intros ->; vm_compute in M; discriminate.
Qed.
Lemma pad_length n k : k < 512 -> Nat.modulo (n + k) 512 = 0 -> Nat.modulo n 512 <> 0 -> k = 512 - Nat.modulo n 512.
Proof. lia. Qed.
Lemma pad_length0 n k : k < 512 -> Nat.modulo (n + k) 512 = 0 -> Nat.modulo n 512 = 0 -> k = 0.
Proof. lia. Qed.
Section Tar.
  Variable int8 : list N -> res Z.
  Hypothesis Hint : reads_octal int8.

  (** One iteration on a header and anything after it *)
  Lemma tar_header fuel pos h n rest : header_for h n -> Nat.modulo pos 512 = 0 ->
    tar_loop int8 (S fuel) pos (h ++ rest) =
    let '(body, fd) := if Nat.eqb n 0 then ([], rest) else ([firstn n rest], skipn n rest) in
    let into := Nat.modulo n 512 in
    let r := tar_loop int8 fuel (pos + 512 + n + (if Nat.eqb into 0 then 0 else 512 - into))
               (if Nat.eqb into 0 then fd else skipn (512 - into) fd) in
    (body ++ fst r, snd r).
  Proof.
    intros (Hl & Hm & ds & k & Hs & Lk & Ne & F & V) Hp. apply field_slice in Hm. change (slice h 256 264 = tar_magic) in Hm. apply field_slice in Hs. rewrite app_length, repeat_length, Lk in Hs. cbn [tar_loop]. unfold blocksize.
    rewrite (firstn_exact rest Hl), (skipn_exact rest Hl), (magic_not_empty Hm).
    change (256 + 8) with 264. rewrite Hm, eqb_refl. cbn [negb].
    rewrite Hs, rstrip0_digits by assumption. rewrite Hint by assumption. rewrite V.
    rewrite Nat2Z.id. destruct (Nat.eqb_spec n 0) as [->|Hn].
    - cbn [Z.of_nat Z.ltb Z.compare Nat.eqb]. rewrite Nat.mod_0_l by discriminate.
      assert (E : Nat.modulo (pos + 512) 512 = 0) by lia. rewrite E. cbn [Nat.eqb]. rewrite !Nat.add_0_r.
      destruct (tar_loop int8 fuel (pos + 512) rest); reflexivity.
    - assert (E : (0 <? Z.of_nat n)%Z = true) by lia. rewrite E.
      assert (E2 : Nat.modulo (pos + 512 + n) 512 = Nat.modulo n 512) by lia. rewrite E2.
      destruct (Nat.eqb_spec (Nat.modulo n 512) 0) as [Hz|Hz].
      + rewrite Nat.add_0_r. destruct (tar_loop int8 fuel (pos + 512 + n) (skipn n rest)); reflexivity.
      + destruct (tar_loop int8 fuel (pos + 512 + n + (512 - Nat.modulo n 512)) (skipn (512 - Nat.modulo n 512) (skipn n rest))); reflexivity.
  Qed.
  Lemma tar_member fuel pos m rest : member_ok m -> Nat.modulo pos 512 = 0 ->
    exists pos', Nat.modulo pos' 512 = 0 /\
      tar_loop int8 (S fuel) pos (bytes m ++ rest) =
      (filter (fun d => negb (Nat.eqb (List.length d) 0)) [m_data m] ++ fst (tar_loop int8 fuel pos' rest), snd (tar_loop int8 fuel pos' rest)).
  Proof.
    intros (Hh & Hpl & Hpm) Hp. unfold bytes. rewrite <- app_assoc, (tar_header _ _ Hh Hp). rewrite <- app_assoc.
    set (n := List.length (m_data m)) in *. cbn [filter].
    assert (Hd : firstn n (m_data m ++ m_pad m ++ rest) = m_data m) by now apply firstn_exact.
    assert (Hs : skipn n (m_data m ++ m_pad m ++ rest) = m_pad m ++ rest) by now apply skipn_exact.
    fold n. destruct (Nat.eqb_spec n 0) as [Hn|Hn].
    - assert (Ed : m_data m = []) by (destruct (m_data m); [reflexivity|discriminate]).
      rewrite Hn in Hpm. cbn [Nat.add] in Hpm. assert (Ep : m_pad m = []) by (destruct (m_pad m); [reflexivity|exfalso; cbn [List.length] in Hpl, Hpm; rewrite Nat.mod_small in Hpm by exact Hpl; discriminate]).
      rewrite Hn, Ed, Ep. rewrite Nat.mod_0_l by discriminate. cbn [Nat.eqb app].
      exists (pos + 512 + 0 + 0). split; [lia|]. reflexivity.
    - rewrite Hd, Hs. cbn [negb]. destruct (Nat.eqb_spec (Nat.modulo n 512) 0) as [Hz|Hz].
      + assert (Ep : m_pad m = []) by (pose proof (pad_length0 Hpl Hpm Hz); destruct (m_pad m); [reflexivity|discriminate]).
        rewrite Ep. cbn [app]. exists (pos + 512 + n + 0). split; [lia|]. reflexivity.
      + rewrite (skipn_exact rest (pad_length Hpl Hpm Hz)). exists (pos + 512 + n + (512 - Nat.modulo n 512)). split; [lia|]. reflexivity.
  Qed.
  Lemma tar_members ms : Forall member_ok ms -> forall fuel pos rest, Nat.modulo pos 512 = 0 ->
    exists pos', Nat.modulo pos' 512 = 0 /\
      tar_loop int8 (List.length ms + fuel) pos (archive ms ++ rest) =
      (contents ms ++ fst (tar_loop int8 fuel pos' rest), snd (tar_loop int8 fuel pos' rest)).
  Proof.
    induction 1 as [|m ms Hm F IH]; intros fuel pos rest Hp.
    - exists pos. split; [exact Hp|]. cbn. destruct (tar_loop int8 fuel pos rest); reflexivity.
    - cbn [List.length Nat.add archive flat_map]. rewrite <- app_assoc.
      destruct (tar_member (List.length ms + fuel) (flat_map bytes ms ++ rest) Hm Hp) as (p1 & P1 & ->).
      destruct (IH fuel p1 rest P1) as (p2 & P2 & E). unfold archive in E. rewrite E. cbn [fst snd]. exists p2. split; [exact P2|].
      unfold contents. cbn [map filter]. destruct (negb (Nat.eqb (List.length (m_data m)) 0)); reflexivity.
  Qed.
  Lemma tar_end fuel pos r : archive_end r -> tar_loop int8 (S fuel) pos r = ([], None).
  Proof.
    intros [->|[r' ->]]; cbn [tar_loop].
    - rewrite firstn_nil. reflexivity.
    - rewrite (firstn_exact r' (n:=blocksize)) by apply repeat_length. rewrite eqb_refl, orb_true_r. reflexivity.
  Qed.
  Lemma skipn_shorter {A} n (l : list A) : List.length (skipn n l) <= List.length l.
  Proof. rewrite skipn_length. lia. Qed.
  (** It always ends, without any assumption on the file. *)
  Lemma tar_terminates fuel : forall pos fd, List.length fd < fuel -> (forall l, int8 l <> Raise OutOfFuel) ->
    snd (tar_loop int8 fuel pos fd) <> Some OutOfFuel.
  Proof.
    induction fuel as [|fuel IH]; intros pos fd L Hi; [lia|]. cbn [tar_loop].
    destruct (eqb (firstn blocksize fd) [] || eqb (firstn blocksize fd) emptyblock) eqn:E0; [discriminate|].
    destruct (negb (eqb (slice (firstn blocksize fd) 256 (256 + 8)) tar_magic)); [discriminate|].
    destruct (int8 (rstrip0 (slice (firstn blocksize fd) 124 (124 + 12)))) as [size|e] eqn:Ei; [|cbn; intros [= ->]; exact (Hi _ Ei)].
    assert (Lt : List.length (skipn blocksize fd) < fuel).
    { rewrite skipn_length. apply orb_false_iff in E0 as [E0 _]. destruct fd as [|c fd]; [rewrite firstn_nil in E0; discriminate|].
      cbn [List.length] in *. unfold blocksize. lia. }
    set (fd1 := skipn blocksize fd) in *. clearbody fd1.
    destruct (0 <? size)%Z;
      (match goal with |- context [Nat.eqb ?a 0] => destruct (Nat.eqb a 0) end);
      (match goal with |- context [tar_loop int8 fuel ?p ?f] =>
         pose proof (IH p f) as K; destruct (tar_loop int8 fuel p f) as [ys e]; cbn [snd] in *; apply K; [|exact Hi] end);
      rewrite ?skipn_length; lia.
  Qed.
  Lemma tar_bad fuel pos r : r <> [] -> firstn 512 r <> emptyblock -> slice (firstn 512 r) 256 264 <> tar_magic ->
    tar_loop int8 (S fuel) pos r = ([], Some AssertionError).
  Proof.
    intros N1 N2 N3. cbn [tar_loop]. unfold blocksize.
    assert (E : eqb (firstn 512 r) [] || eqb (firstn 512 r) emptyblock = false).
    { apply orb_false_iff. split; apply eqb_neq; [|exact N2]. destruct r; [congruence|discriminate]. }
    rewrite E. change (256 + 8) with 264. apply eqb_neq in N3. rewrite N3. reflexivity.
  Qed.
End Tar.

(** * Line ends survive the character map. *)
Lemma contains_skip {A} (p img t : list A) : p <> [] -> (forall x, In x p -> ~ In x img) -> contains p (img ++ t) <-> contains p t.
Proof.
  intros Ne H. destruct p as [|x p]; [congruence|]. induction img as [|c img IH]; [reflexivity|]. cbn [app].
  rewrite contains_cons by discriminate. rewrite IH by (intros y Hy K; apply (H y Hy); right; exact K). split; [|auto].
  intros [[r E]|K]; [|exact K]. injection E as E _. exfalso. apply (H x); [left; reflexivity|left; auto].
Qed.
Lemma mapChars_cons (m : list (N * list N)) c t : mapChars m (c :: t) = (match dget m c with Some y => y | None => [c] end) ++ mapChars m t.
Proof. reflexivity. Qed.
Lemma prefix_mapChars m p : (forall x, In x p -> dget m x = None) -> (forall c i, dget m c = Some i -> i <> [] /\ forall x, In x p -> ~ In x i) ->
  forall t, (exists r, mapChars m t = p ++ r) <-> (exists r, t = p ++ r).
Proof.
  induction p as [|x p IH]; intros Hp Hi t; [cbn; split; eauto|]. destruct t as [|c t]; [cbn; split; intros [r E]; discriminate|].
  rewrite !mapChars_cons. destruct (dget m c) as [i|] eqn:E.
  - destruct (Hi c i E) as [Ni Hx]. destruct i as [|y i]; [congruence|]. cbn [app]. split; intros [r K].
    + injection K as K _. exfalso. apply (Hx x); [left; reflexivity|left; auto].
    + injection K as -> _. rewrite Hp in E by (left; reflexivity). discriminate.
  - cbn [app]. assert (IH' : (exists r, mapChars m t = p ++ r) <-> (exists r, t = p ++ r)).
    { apply IH; [intros; apply Hp; right; assumption|]. intros d j Ej. destruct (Hi d j Ej) as [Nj Hj]. split; [exact Nj|]. intros; apply Hj; right; assumption. }
    split; intros [r K].
    + injection K as -> K. destruct (proj1 IH') as [r' ->]; [exists r; exact K|]. exists r'. reflexivity.
    + injection K as -> ->. destruct (proj2 IH') as [r' K]; [eauto|]. exists r'. cbn. f_equal. exact K.
Qed.
Lemma contains_mapChars m p : p <> [] -> (forall x, In x p -> dget m x = None) ->
  (forall c i, dget m c = Some i -> i <> [] /\ forall x, In x p -> ~ In x i) ->
  forall t, contains p (mapChars m t) <-> contains p t.
Proof.
  intros Ne Hp Hi. destruct p as [|x p]; [congruence|]. induction t as [|c t IH]; [reflexivity|].
  rewrite (contains_cons c t) by discriminate. rewrite <- IH, <- (prefix_mapChars Hp Hi). rewrite !mapChars_cons. destruct (dget m c) as [i|] eqn:E.
  - destruct (Hi c i E) as [Ni Hx]. rewrite contains_skip by (try discriminate; assumption). split; [auto|].
    intros [[r K]|K]; [|exact K]. exfalso. destruct i as [|y i]; [congruence|]. injection K as K _. apply (Hx x); [left; reflexivity|left; auto].
  - exact (@contains_cons N (x :: p) c (mapChars m t) Ne).
Qed.
Lemma prepare_crlf t : contains [CR; LF] (prepare t) <-> contains [CR; CR; LF] t.
Proof.
  unfold prepare. rewrite crlf_exact. apply contains_mapChars; [discriminate| |].
  - intros x H. destruct H as [<-|[<-|[<-|[]]]]; vm_compute; reflexivity.
  - assert (B : forallb (fun kp => negb (eqb (snd kp) []) && negb (mem CR (snd kp)) && negb (mem LF (snd kp))) charMap = true) by (vm_compute; reflexivity).
    intros c i E. apply dget_In in E. rewrite forallb_forall in B. specialize (B _ E). cbn [snd] in B.
    apply andb_true_iff in B as [B B3]. apply andb_true_iff in B as [B1 B2]. split.
    + intros ->. discriminate.
    + intros x H K. apply mem_In in K. destruct H as [<-|[<-|[<-|[]]]]; rewrite K in *; discriminate.
Qed.
