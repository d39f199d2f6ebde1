(** C84: the variables of the report for Arabic letters. *)
From Coq Require Import Ascii.
From Verif Require Import Base LayoutModel KlcModel DataLayouts ShippedProofs LetterModel.
Open Scope string_scope.
Open Scope list_scope.
Unset Implicit Arguments.

(** * Specification *)
(** An element of the page written in another language, here Arabic. *)
Definition arabic_element (t : text) : text := lit "<bdo lang=""ar"">" ++ t ++ lit "</bdo>".
(** The name, a space and the letter in parentheses. *)
Definition explained (romanized arabic : text) : text :=
  romanized ++ [32%N] ++ arabic_element ([40%N] ++ arabic ++ [41%N]).
(** A letter's variables: name, name in lower case, both with an underscore. *)
Inductive variable_of (lower : text -> text) (k : string) (romanized arabic : text) : string -> text -> Prop :=
  | v_plain : variable_of lower k romanized arabic k (explained romanized arabic)
  | v_lower : variable_of lower k romanized arabic (slower k) (lower (explained romanized arabic))
  | v_name : variable_of lower k romanized arabic (k ++ "_")%string romanized
  | v_lower_name : variable_of lower k romanized arabic (slower k ++ "_")%string (lower romanized).
(** Names that do not interfere: different in lower case, each with a capital, none with a final underscore. *)
Definition apart (names : list (string * (text * text))) : Prop :=
  NoDup (map (fun x => slower (fst x)) names) /\
  forall k x, In (k, x) names -> slower k <> k /\ ~ exists s, k = (s ++ "_")%string.

(** * Lemmas *)
Lemma lower_ascii_idem c : lower_ascii (lower_ascii c) = lower_ascii c.
Proof. destruct c as [[] [] [] [] [] [] [] []]; reflexivity. Qed.
Lemma slower_idem s : slower (slower s) = slower s.
Proof. induction s as [|c s IH]; cbn; [reflexivity|]. rewrite lower_ascii_idem, IH. reflexivity. Qed.
Lemma slower_app s t : slower (s ++ t) = (slower s ++ slower t)%string.
Proof. induction s as [|c s IH]; cbn; [reflexivity|]. rewrite IH. reflexivity. Qed.
Lemma slower_us s : slower (s ++ "_") = (slower s ++ "_")%string.
Proof. rewrite slower_app. reflexivity. Qed.
Lemma us_inj s t : (s ++ "_")%string = (t ++ "_")%string -> s = t.
Proof.
  revert t; induction s as [|c s IH]; intros [|d t] E; cbn in E.
  - reflexivity.
  - inversion E. destruct t; discriminate.
  - inversion E. destruct s; discriminate.
  - inversion E. f_equal. apply IH. assumption.
Qed.
Lemma lower_us c : lower_ascii c = "_"%char -> c = "_"%char.
Proof. destruct c as [[] [] [] [] [] [] [] []]; vm_compute; congruence. Qed.
Lemma slower_ends s t : slower s = (t ++ "_")%string -> exists u, s = (u ++ "_")%string.
Proof.
  revert t; induction s as [|c s IH]; intros t E; [destruct t; discriminate E|].
  cbn in E. destruct t as [|d t]; cbn in E; inversion E as [[E1 E2]].
  - destruct s; [|discriminate E2]. exists "". rewrite (lower_us c E1). reflexivity.
  - destruct (IH t E2) as [u ->]. exists (String c u). reflexivity.
Qed.
(** A round sets four variables *)
Definition four (lower : text -> text) (x : string * (text * text)) : list (string * text) :=
  let '(k, (r, a)) := x in
  [(k, shown r a); (slower k, lower (shown r a)); ((k ++ "_")%string, r); ((slower k ++ "_")%string, lower r)].
Definition assign (g : list (string * text)) (kv : string * text) := dset g (fst kv) (snd kv).
Lemma globals_flat lower names g : letter_globals lower names g = Ok (fold_left assign (flat_map (four lower) names) g).
Proof.
  revert g; induction names as [|[k [r a]] names IH]; intros g; [reflexivity|].
  unfold letter_globals. cbn [foldM]. unfold letter_round at 1. unfold dgetM. rewrite dget_dset_same. cbn [bind].
  etransitivity; [apply IH|]. cbn [flat_map four app]. cbn [fold_left assign fst snd]. reflexivity.
Qed.
Lemma dget_assign l g k : NoDup (dkeys l) -> dget (fold_left assign l g) k = match dget l k with Some v => Some v | None => dget g k end.
Proof.
  revert g; induction l as [|[k' v'] l IH]; intros g Hn; [reflexivity|].
  cbn [fold_left dkeys map fst] in *. inversion Hn as [|? ? Hni Hn']; subst.
  rewrite (IH _ Hn'). unfold assign. cbn [fst snd]. rewrite dget_dset. cbn [dget].
  destruct (eqb k k') eqn:E; [|reflexivity]. apply (proj1 (eqb_eq _ _)) in E. subst k'.
  rewrite (proj2 (dget_None l k) Hni). reflexivity.
Qed.
Lemma shown_explained r a : shown r a = explained r a.
Proof. unfold shown, explained, arabic_element. rewrite <- !app_assoc. reflexivity. Qed.
Lemma four_iff lower k r a n v : In (n, v) (four lower (k, (r, a))) <-> variable_of lower k r a n v.
Proof.
  unfold four. rewrite shown_explained. cbn [In]. split.
  - intros [E|[E|[E|[E|[]]]]]; inversion E; subst; constructor.
  - intros H; destruct H; tauto.
Qed.
Lemma four_keys lower k x : dkeys (four lower (k, x)) = [k; slower k; (k ++ "_")%string; (slower k ++ "_")%string].
Proof. destruct x; reflexivity. Qed.
(** All four tell the letter *)
Lemma four_meet lower k x k' x' n : (~ exists s, k = (s ++ "_")%string) -> (~ exists s, k' = (s ++ "_")%string) ->
  In n (dkeys (four lower (k, x))) -> In n (dkeys (four lower (k', x'))) -> slower k = slower k'.
Proof.
  intros U U'. rewrite !four_keys. cbn [In].
  assert (L : ~ exists s, slower k = (s ++ "_")%string) by (intros [s Hs]; destruct (slower_ends _ _ Hs); eauto).
  assert (L' : ~ exists s, slower k' = (s ++ "_")%string) by (intros [s Hs]; destruct (slower_ends _ _ Hs); eauto).
  pose proof (slower_idem k) as I. pose proof (slower_idem k') as I'.
  intros [<-|[<-|[<-|[<-|[]]]]] [E|[E|[E|[E|[]]]]]; try apply us_inj in E; try congruence;
    exfalso; first [apply U; eexists; (exact E || (symmetry; exact E)) | apply U'; eexists; (exact E || (symmetry; exact E))
      | apply L; eexists; (exact E || (symmetry; exact E)) | apply L'; eexists; (exact E || (symmetry; exact E))].
Qed.
Lemma NoDup_flat {A B} (f : A -> list B) l : NoDup l -> (forall x, In x l -> NoDup (f x)) ->
  (forall x y b, In x l -> In y l -> In b (f x) -> In b (f y) -> x = y) -> NoDup (flat_map f l).
Proof.
  induction l as [|x l IH]; intros Hn H1 H2; cbn; [constructor|]. inversion Hn as [|? ? Hx Hl]; subst.
  assert (G : NoDup (flat_map f l)).
  { apply IH; [exact Hl| |].
    - intros y Hy. apply H1. right. exact Hy.
    - intros y z b Hy Hz. apply H2; right; assumption. }
  assert (Q : forall m, NoDup m -> (forall b, In b m -> ~ In b (flat_map f l)) -> NoDup (m ++ flat_map f l)).
  { clear - G. induction m as [|b m IH]; intros Hm Hd; [exact G|]. cbn. inversion Hm; subst. constructor.
    - intros I. apply in_app_iff in I as [I|I]; [contradiction|]. apply (Hd b); [left; reflexivity|exact I].
    - apply IH; [assumption|]. intros c Hc. apply Hd. right. exact Hc. }
  apply Q; [apply H1; left; reflexivity|]. intros b Hb I. apply in_flat_map in I as (y & Hy & Hyb).
  apply Hx. replace x with y; [exact Hy|]. symmetry. apply (H2 x y b); [left; reflexivity|right; exact Hy|exact Hb|exact Hyb].
Qed.
Lemma NoDup_keys_flat lower names : apart names -> NoDup (dkeys (flat_map (four lower) names)).
Proof.
  intros [Hn Hk].
  assert (E : dkeys (flat_map (four lower) names) = flat_map (fun x => dkeys (four lower x)) names).
  { clear. induction names as [|x names IH]; cbn; [reflexivity|]. unfold dkeys in *. rewrite map_app. f_equal. exact IH. }
  rewrite E. apply NoDup_flat.
  - apply (NoDup_map_inv _ _ Hn).
  - intros [k x] Hx. rewrite four_keys. destruct (Hk _ _ Hx) as [Hl Hu].
    assert (L : ~ exists s, slower k = (s ++ "_")%string) by (intros [s Hs]; destruct (slower_ends _ _ Hs); eauto).
    repeat constructor; cbn [In]; intros I; repeat destruct I as [I|I]; try contradiction; try congruence;
      try (apply us_inj in I; congruence); first [apply Hu; eexists; (exact I || (symmetry; exact I)) | apply L; eexists; (exact I || (symmetry; exact I))].
  - intros [k x] [k' x'] n Hx Hy I J. destruct (Hk _ _ Hx) as [_ Hu]. destruct (Hk _ _ Hy) as [_ Hu'].
    pose proof (four_meet _ _ _ _ _ _ Hu Hu' I J) as M. clear - Hn Hx Hy M.
    induction names as [|z names IH]; [contradiction|]. cbn in Hn. inversion Hn as [|? ? Hz Hr]; subst.
    destruct Hx as [->|Hx], Hy as [Hy|Hy].
    + exact Hy.
    + exfalso. apply Hz. cbn. rewrite M. apply (in_map (fun x => slower (fst x)) _ _ Hy).
    + subst z. exfalso. apply Hz. cbn. rewrite <- M. apply (in_map (fun x => slower (fst x)) _ _ Hx).
    + apply IH; assumption.
Qed.

(** * C84 *)
(** For every table of names that are apart the loop succeeds, each variable of each letter has its
    value, and nothing else is changed. *)
Theorem C84_letters lower names g : apart names ->
  exists g', letter_globals lower names g = Ok g' /\
  (forall k r a n v, In (k, (r, a)) names -> variable_of lower k r a n v -> dget g' n = Some v) /\
  (forall n, (forall k r a v, In (k, (r, a)) names -> ~ variable_of lower k r a n v) -> dget g' n = dget g n).
Proof.
  intros Ha. rewrite globals_flat. eexists. split; [reflexivity|]. pose proof (NoDup_keys_flat lower _ Ha) as Hn. split.
  - intros k r a n v Hk Hv. rewrite dget_assign by exact Hn.
    assert (I : In (n, v) (flat_map (four lower) names)) by (apply in_flat_map; exists (k, (r, a)); split; [exact Hk|apply four_iff, Hv]).
    apply (proj2 (dget_In_iff _ n v Hn)) in I. rewrite I. reflexivity.
  - intros n Hno. rewrite dget_assign by exact Hn.
    destruct (dget (flat_map (four lower) names) n) as [v|] eqn:E; [|reflexivity]. exfalso.
    apply dget_In in E. apply in_flat_map in E as ([k [r a]] & Hk & Hv). apply four_iff in Hv. exact (Hno _ _ _ _ Hk Hv).
Qed.
(** Without capitals or with an underscore at the end letters would overwrite each other. *)
Example C84_letters_needs_capital : exists v, letter_globals tlower [("alif", (lit "Alif", lit "A"))] [] = Ok v /\
  dget v "alif" = Some (tlower (shown (lit "Alif") (lit "A"))) /\ shown (lit "Alif") (lit "A") <> tlower (shown (lit "Alif") (lit "A")).
Proof. eexists. split; [reflexivity|]. split; [reflexivity|]. vm_compute. congruence. Qed.
Example C84_letters_needs_underscore : exists v, letter_globals tlower [("Ta_", (lit "Ta_", lit "A")); ("Ta", (lit "Ta", lit "B"))] [] = Ok v /\
  dget v "Ta_" = Some (lit "Ta").
Proof. eexists. split; reflexivity. Qed.

(** The names of the report are apart. *)
Lemma names_apart : apart letterNames.
Proof.
  split.
  - assert (E : nodupb (map (fun x => slower (fst x)) letterNames) = true) by (vm_compute; reflexivity).
    apply nodupb_NoDup, E.
  - assert (E : forallb (fun x => negb (String.eqb (slower (fst x)) (fst x)) &&
      negb (match rev (list_ascii_of_string (fst x)) with c :: _ => Ascii.eqb c "_"%char | [] => false end)) letterNames = true)
      by (vm_compute; reflexivity).
    intros k x Hx. apply (proj1 (forallb_forall _ _) E) in Hx. cbn [fst] in Hx.
    apply andb_true_iff in Hx as [H1 H2]. apply negb_true_iff in H1, H2. split; [apply String.eqb_neq, H1|].
    intros [s ->]. assert (A : forall u, rev (list_ascii_of_string (u ++ "_")) = "_"%char :: rev (list_ascii_of_string u)).
    { induction u as [|c u IH]; [reflexivity|]. cbn [String.append list_ascii_of_string rev]. rewrite IH. reflexivity. }
    rewrite A in H2. discriminate H2.
Qed.
(** Every name in braces on the page is a variable of a letter of the table, and has its value. *)
Theorem C84_used g g' : letter_globals tlower letterNames g = Ok g' ->
  forall line n, In (line, n) letter_uses ->
  exists k r a v, In (k, (r, a)) letterNames /\ variable_of tlower k r a n v /\ dget g' n = Some v.
Proof.
  intros E line n Hu. destruct (C84_letters tlower letterNames g names_apart) as (g2 & E2 & H1 & _).
  assert (g2 = g') by congruence. subst g2.
  assert (B : forallb (fun u => existsb (fun x => mem (snd u) (dkeys (four tlower x))) letterNames) letter_uses = true) by (vm_compute; reflexivity).
  apply (proj1 (forallb_forall _ _) B) in Hu. apply existsb_exists in Hu as ([k [r a]] & Hk & Hm).
  apply mem_In in Hm. cbn [snd] in Hm. apply in_map_iff in Hm as ([n' v] & En & Hv). cbn [fst] in En. subst n'.
  apply four_iff in Hv. exists k, r, a, v. split; [exact Hk|]. split; [exact Hv|]. exact (H1 _ _ _ _ _ Hk Hv).
Qed.
(** No other variable of the page and no global of jinja2 is a letter. *)
Theorem C84_clash g g' n : letter_globals tlower letterNames g = Ok g' -> In n (other_variables ++ jinja_globals) ->
  dget g' n = dget g n.
Proof.
  intros E Hn. destruct (C84_letters tlower letterNames g names_apart) as (g2 & E2 & _ & H2).
  assert (g2 = g') by congruence. subst g2. apply H2. intros k r a v Hk Hv. apply four_iff in Hv.
  assert (B : forallb (fun n => forallb (fun x => negb (mem n (dkeys (four tlower x)))) letterNames) (other_variables ++ jinja_globals) = true) by (vm_compute; reflexivity).
  apply (proj1 (forallb_forall _ _) B) in Hn. apply (proj1 (forallb_forall _ _) Hn) in Hk. apply negb_true_iff in Hk.
  assert (M : mem n (dkeys (four tlower (k, (r, a)))) = true) by (apply mem_In; apply (in_map fst) in Hv; exact Hv). congruence.
Qed.
(** Different letters have different names, in lower case as well, and different characters. *)
Theorem C84_different k r a k' r' a' : In (k, (r, a)) letterNames -> In (k', (r', a')) letterNames ->
  k <> k' -> tlower r <> tlower r' /\ a <> a'.
Proof.
  assert (B : forallb (fun x => forallb (fun y => eqb (fst x) (fst y) ||
    negb (eqb (tlower (fst (snd x))) (tlower (fst (snd y)))) && negb (eqb (snd (snd x)) (snd (snd y)))) letterNames) letterNames = true) by (vm_compute; reflexivity).
  intros H H' N. apply (proj1 (forallb_forall _ _) B) in H. apply (proj1 (forallb_forall _ _) H) in H'. cbn [fst snd] in H'.
  apply orb_true_iff in H' as [E|E]; [apply (proj1 (eqb_eq _ _)) in E; contradiction|].
  apply andb_true_iff in E as [E1 E2]. apply negb_true_iff in E1, E2.
  split; intros X; [rewrite X, (proj2 (eqb_eq _ _) eq_refl) in E1; discriminate E1|rewrite X, (proj2 (eqb_eq _ _) eq_refl) in E2; discriminate E2].
Qed.
(** Lower case changes neither the characters of the letter nor the elements around them. *)
Theorem C84_lower k r a : In (k, (r, a)) letterNames -> tlower (explained r a) = explained (tlower r) a.
Proof.
  intros H. unfold explained, arabic_element, tlower. rewrite !map_app. repeat f_equal.
  assert (B : forallb (fun x => eqb (tlower (snd (snd x))) (snd (snd x))) letterNames = true) by (vm_compute; reflexivity).
  apply (proj1 (forallb_forall _ _) B) in H. apply (proj1 (eqb_eq _ _)) in H. exact H.
Qed.
(** Each letter can be typed on each of the layouts the page compares, in one or more key presses;
    the exceptions are three letters on ar-alramly and one on ar-khorshid. *)
Definition on_layout (d : generic_data) (t : text) : Prop :=
  t <> [] /\ exists l b, In l (shipped_layers d) /\ In (b, CText t) (llayout l).
Definition typable (d : generic_data) (t : text) : Prop := exists ps, concat ps = t /\ Forall (on_layout d) ps.
Definition lacking : list (string * string) :=
  [("ar-alramly", "Alifhamzah"); ("ar-alramly", "Wawhamzah"); ("ar-alramly", "Alifmaqsurah"); ("ar-khorshid", "Alifhamzah")].
Lemma short_pieces d t : t <> [] -> List.length t <= 2 ->
  (typable d t <-> on_layout d t \/ Forall (fun c => on_layout d [c]) t).
Proof.
  intros Hne Hl. split.
  - intros (ps & <- & H). destruct ps as [|p [|q ps]]; [cbn in Hne; congruence| |].
    + left. inversion H; subst. cbn. rewrite app_nil_r. assumption.
    + right. inversion H as [|? ? Hp H']; subst. inversion H' as [|? ? Hq H'']; subst.
      destruct p as [|x p]; [destruct Hp as [Hp _]; congruence|]. destruct q as [|y q]; [destruct Hq as [Hq _]; congruence|].
      cbn [concat app List.length] in Hl. rewrite app_length in Hl. cbn [List.length] in Hl. rewrite app_length in Hl.
      destruct p; [|cbn in Hl; lia]. destruct q; [|cbn in Hl; lia].
      destruct (concat ps) eqn:Ec; [|cbn in Hl; lia]. cbn [concat app]. rewrite Ec. constructor; [exact Hp|]. constructor; [exact Hq|constructor].
  - intros [H|H].
    + exists [t]. cbn. rewrite app_nil_r. split; [reflexivity|]. constructor; [exact H|constructor].
    + exists (map (fun c => [c]) t). split.
      * clear. induction t as [|c t IH]; cbn; [reflexivity|]. rewrite IH. reflexivity.
      * apply Forall_forall. intros p Hp. apply in_map_iff in Hp as (c & <- & Hc). exact (proj1 (Forall_forall _ _) H c Hc).
Qed.
Definition has (d : generic_data) (t : text) : bool :=
  negb (eqb t []) && existsb (fun l => existsb (fun kv => match snd kv with CText x => eqb x t | COther => false end) (llayout l)) (shipped_layers d).
Lemma has_iff d t : has d t = true <-> on_layout d t.
Proof.
  unfold has, on_layout. rewrite andb_true_iff, negb_true_iff, existsb_exists. split.
  - intros (Hn & l & Hl & E). split; [intros ->; discriminate Hn|]. apply existsb_exists in E as ([b v] & Hv & E). cbn [snd] in E.
    destruct v as [x|]; [|discriminate E]. apply (proj1 (eqb_eq _ _)) in E. subst x. exists l, b. split; assumption.
  - intros (Hn & l & b & Hl & Hb). split; [destruct t; [congruence|reflexivity]|]. exists l. split; [exact Hl|].
    apply existsb_exists. exists (b, CText t). split; [exact Hb|]. apply (proj2 (eqb_eq _ _)). reflexivity.
Qed.
Theorem C84_typable d k r a : In d all_layouts -> gd_name d <> "null" -> In (k, (r, a)) letterNames ->
  (typable d a <-> ~ In (gd_name d, k) lacking).
Proof.
  assert (B : forallb (fun d => String.eqb (gd_name d) "null" || forallb (fun x =>
    Bool.eqb (has d (snd (snd x)) || forallb (fun c => has d [c]) (snd (snd x))) (negb (mem (gd_name d, fst x) lacking))) letterNames) all_layouts = true)
    by (vm_compute; reflexivity).
  assert (S : forallb (fun x => negb (eqb (snd (snd x)) []) && Nat.leb (List.length (snd (snd x))) 2) letterNames = true) by (vm_compute; reflexivity).
  intros Hd Hnull Hk. apply (proj1 (forallb_forall _ _) B) in Hd. apply orb_true_iff in Hd as [Hd|Hd].
  { exfalso. apply Hnull. apply String.eqb_eq, Hd. }
  apply (proj1 (forallb_forall _ _)) with (x := (k, (r, a))) in S; [|exact Hk]. cbn [fst snd] in S.
  apply andb_true_iff in S as [S1 S2]. apply Nat.leb_le in S2.
  apply (proj1 (forallb_forall _ _) Hd) in Hk. cbn [fst snd] in Hk. apply (proj1 (Bool.eqb_true_iff _ _)) in Hk.
  rewrite short_pieces; [|intros ->; discriminate S1|exact S2].
  rewrite <- (mem_In (gd_name d, k) lacking).
  assert (E : (on_layout d a \/ Forall (fun c => on_layout d [c]) a) <-> has d a || forallb (fun c => has d [c]) a = true).
  { rewrite orb_true_iff, has_iff, forallb_forall, Forall_forall. split; (intros [H|H]; [left; exact H|right; intros c Hc; apply has_iff, H, Hc]). }
  rewrite E, Hk, negb_true_iff. destruct (mem (gd_name d, k) lacking); split; congruence.
Qed.
Example C84_example : exists g, letter_globals tlower letterNames [("range", lit "x")] = Ok g /\
  dget g "lam" = Some ([108; 97; 772; 109]%N ++ lit " <bdo lang=""ar"">(" ++ [1604%N] ++ lit ")</bdo>") /\
  dget g "hamzah_" = Some (lit "hamzah") /\ dget g "range" = Some (lit "x") /\ List.length g = 81.
Proof. eexists. split; [vm_compute; reflexivity|]. repeat split; vm_compute; reflexivity. Qed.

Print Assumptions C84_letters.
Print Assumptions C84_used.
Print Assumptions C84_clash.
Print Assumptions C84_different.
Print Assumptions C84_lower.
Print Assumptions C84_typable.
