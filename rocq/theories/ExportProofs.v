(** Proofs about the exporters. *)
From Coq Require Import QArith Ascii Permutation.
From Verif Require Import Base KeyboardModel LayoutModel LayoutSpec LayoutProofs DataKeyboard RenderModel ExportModel ExportSpec PropsLayout PropsRender.
Close Scope Q_scope.
Set Implicit Arguments.
Open Scope string_scope.
Open Scope list_scope.

(** * Hexadecimal numbers *)
Fixpoint hread (acc : N) (l : list ascii) : option N :=
  match l with
  | [] => Some acc
  | a :: l' => match hexval a with Some d => hread (16 * acc + d)%N l' | None => None end
  end.
Lemma hex_read_list l acc : hex_read acc (string_of_list_ascii l) = hread acc l.
Proof. revert acc; induction l as [|a l IH]; intros acc; cbn; [reflexivity|]. destruct (hexval a); [apply IH|reflexivity]. Qed.
Lemma hexval_hexchar d : (d < 16)%N -> hexval (hexchar d) = Some d.
Proof.
  intros H. assert (C : (d = 0 \/ d = 1 \/ d = 2 \/ d = 3 \/ d = 4 \/ d = 5 \/ d = 6 \/ d = 7 \/ d = 8 \/ d = 9 \/ d = 10 \/ d = 11 \/ d = 12 \/ d = 13 \/ d = 14 \/ d = 15)%N) by lia.
  repeat (destruct C as [->|C]; [reflexivity|]). subst. reflexivity.
Qed.
Lemma hread_digits fuel : forall n rest, 0 < fuel -> (n < 16 ^ N.of_nat fuel)%N -> hread 0 (hexdigits fuel n rest) = hread n rest.
Proof.
  induction fuel as [|f IH]; intros n rest H0 H; [lia|]. cbn [hexdigits].
  assert (M : (n mod 16 < 16)%N) by (apply N.mod_lt; discriminate).
  assert (D : (n = 16 * (n / 16) + n mod 16)%N) by (apply N.div_mod; discriminate).
  destruct (N.eqb_spec (n / 16) 0) as [E|E].
  - cbn [hread]. rewrite hexval_hexchar by exact M. rewrite E in D. f_equal. lia.
  - rewrite IH.
    + cbn [hread]. rewrite hexval_hexchar by exact M. rewrite <- D. reflexivity.
    + destruct f; [|lia]. exfalso. cbn in H. apply E. apply N.div_small. lia.
    + rewrite Nat2N.inj_succ, N.pow_succ_r' in H. apply N.div_lt_upper_bound; [discriminate|lia].
Qed.
Lemma size_bound n : (n < 16 ^ N.of_nat (S (N.size_nat n)))%N.
Proof.
  assert (A : (n < 2 ^ N.size n)%N) by apply N.size_gt.
  assert (B : N.of_nat (N.size_nat n) = N.size n).
  { destruct n as [|p]; [reflexivity|]. cbn [N.size_nat N.size].
    assert (G : forall q, Pos.to_nat (Pos.size q) = Pos.size_nat q) by (induction q; cbn [Pos.size Pos.size_nat]; rewrite ?Pos2Nat.inj_succ, ?IHq; reflexivity).
    rewrite <- G. apply positive_nat_N. }
  eapply N.lt_le_trans; [exact A|]. rewrite Nat2N.inj_succ, B. change 16%N with (2 ^ 4)%N. rewrite <- N.pow_mul_r. apply N.pow_le_mono_r; lia.
Qed.
Lemma hread_zeros k l : hread 0 (repeat "0"%char k ++ l) = hread 0 l.
Proof. induction k; [reflexivity|exact IHk]. Qed.
Lemma hex4_read n : hex_read 0 (hex4 n) = Some n.
Proof. unfold hex4. rewrite hex_read_list, hread_zeros. unfold hex. rewrite hread_digits; [reflexivity|lia|apply size_bound]. Qed.
Lemma string_length_list l : String.length (string_of_list_ascii l) = List.length l.
Proof. induction l; cbn; auto. Qed.
Lemma hex4_length n : 4 <= String.length (hex4 n).
Proof. unfold hex4. rewrite string_length_list, app_length, repeat_length. lia. Qed.
Lemma keysym_char_U n : keysym_char ("U" ++ hex4 n) = Some n.
Proof.
  pose proof (hex4_length n) as H. pose proof (hex4_read n) as R. destruct (hex4 n) as [|a [|b [|c [|d s]]]]; cbn in H; try lia. exact R.
Qed.
Lemma codepoint_U n : codepoint ("U+" ++ hex4 n) = Some n.
Proof.
  pose proof (hex4_length n) as H. pose proof (hex4_read n) as R.
  destruct (hex4 n) as [|a [|b [|c [|d s]]]]; cbn in H; try lia. exact R.
Qed.

(** * xmodmap *)
Lemma keysym_spec c s : keysym c = Ok s -> keysym_char s = one_char c /\ simple_cell c.
Proof.
  unfold keysym, simple_cell. destruct c as [[t|]|]; [| discriminate |intros [= <-]; split; [reflexivity|auto]].
  destruct t as [|x [|y t]]; cbn [ord_ bind]; [intros [= <-]; split; [reflexivity|auto]| |discriminate].
  intros X. split; [|right; right; eauto]. cbn [one_char].
  destruct (dget specialMap [x]) as [k|] eqn:E.
  - assert (s = k) as -> by congruence. apply dget_In in E. cbn in E.
    destruct E as [E|[E|[E|[E|[]]]]]; inversion E; subst; reflexivity.
  - assert (s = "U" ++ hex4 x)%string as -> by congruence. apply keysym_char_U.
Qed.
Lemma keysym_Ok c : simple_cell c -> exists s, keysym c = Ok s.
Proof. intros [->|[->|[x ->]]]; cbn; eauto. Qed.

Definition olds (d : keycodes) (b : string) : list string := match dget d b with Some l => l | None => [] end.
Lemma olds_kappend d b s b' : olds (kappend d b s) b' = olds d b' ++ (if eqb b' b then [s] else []).
Proof.
  unfold olds, kappend. rewrite dget_dset. destruct (eqb_spec b' b) as [->|]; [reflexivity|]. rewrite app_nil_r. reflexivity.
Qed.
Lemma keys_kappend d b s x : In x (dkeys (kappend d b s)) <-> x = b \/ In x (dkeys d).
Proof. apply In_dkeys_dset. Qed.
Lemma wf_kappend d b s : dict_wf d -> dict_wf (kappend d b s).
Proof. apply dset_wf. Qed.

Section Column.
  Variable L : layout.
  (** the symbol of key [b] in the column of layer [i] *)
  Definition colsym (b : string) (i : nat) : res string :=
    match nth_error (layers L) i with None => Ok "NoSymbol" | Some l => keysym (dget (llayout l) b) end.
  Definition modb (b : string) : bool := isModifier L (frozenset [b]).
  Lemma fold_nosym us d : forall b, NoDup (map kb_name us) ->
    olds (fold_left (fun d b => kappend d (kb_name b) "NoSymbol") us d) b = olds d b ++ (if mem b (map kb_name us) then ["NoSymbol"] else []).
  Proof.
    revert d; induction us as [|u us IH]; intros d b N; cbn [fold_left map]; [rewrite app_nil_r; reflexivity|].
    inversion N as [|? ? Nu Nus]; subst. rewrite IH by exact Nus. rewrite olds_kappend, <- app_assoc. f_equal.
    change (mem b (kb_name u :: map kb_name us)) with (eqb b (kb_name u) || mem b (map kb_name us))%bool.
    destruct (eqb_spec b (kb_name u)) as [->|]; [|reflexivity].
    destruct (mem (kb_name u) (map kb_name us)) eqn:M; [apply mem_In in M; contradiction|reflexivity].
  Qed.
  Lemma fold_nosym_keys us d x : In x (dkeys (fold_left (fun d b => kappend d (kb_name b) "NoSymbol") us d)) <-> In x (map kb_name us) \/ In x (dkeys d).
  Proof. revert d; induction us as [|u us IH]; intros d; cbn [fold_left map]; [cbn; tauto|]. rewrite IH, keys_kappend. cbn [In]. intuition congruence. Qed.
  Lemma fold_nosym_wf us d : dict_wf d -> dict_wf (fold_left (fun d b => kappend d (kb_name b) "NoSymbol") us d).
  Proof. revert d; induction us as [|u us IH]; intros d W; cbn [fold_left]; [exact W|]. apply IH, wf_kappend, W. Qed.
  Definition lstep (l : layer) := fun d b => if isModifier L (frozenset [kb_name b]) then Ok d
    else do s <- keysym (dget (llayout l) (kb_name b)); Ok (kappend d (kb_name b) s).
  Lemma fold_layer l us : forall d d', NoDup (map kb_name us) -> foldM (lstep l) us d = Ok d' ->
    (forall b, In b (map kb_name us) -> modb b = false -> exists s, keysym (dget (llayout l) b) = Ok s /\ olds d' b = olds d b ++ [s]) /\
    (forall b, ~ In b (map kb_name us) \/ modb b = true -> olds d' b = olds d b) /\
    (forall x, In x (dkeys d') <-> In x (dkeys d) \/ (In x (map kb_name us) /\ modb x = false)) /\
    (dict_wf d -> dict_wf d').
  Proof.
    induction us as [|u us IH]; intros d d' N E; cbn [foldM map] in *.
    - assert (d' = d) as -> by congruence. split; [intros b []|]. split; [reflexivity|]. split; [cbn; tauto|auto].
    - inversion N as [|? ? Nu Nus]; subst. unfold lstep at 1 in E. fold (modb (kb_name u)) in E. destruct (modb (kb_name u)) eqn:Mu; cbn [bind] in E.
      + destruct (IH _ _ Nus E) as (A & B & C & D). split; [|split; [|split]].
        * intros b [<-|Hb] M; [congruence|auto].
        * intros b [Hb|M]; apply B; [left; intros X; apply Hb; right; exact X|right; exact M].
        * intros x. rewrite C. cbn [In]. split; [tauto|]. intros [?|[[<-|?] ?]]; [tauto|congruence|tauto].
        * exact D.
      + destruct (keysym (dget (llayout l) (kb_name u))) as [s|] eqn:Es; cbn [bind] in E; [|discriminate].
        destruct (IH _ _ Nus E) as (A & B & C & D). split; [|split; [|split]].
        * intros b [<-|Hb] M.
          -- exists s. split; [exact Es|]. rewrite B by (left; exact Nu). rewrite olds_kappend, eqb_refl. reflexivity.
          -- destruct (A b Hb M) as (s' & E1 & E2). exists s'. split; [exact E1|]. rewrite E2, olds_kappend.
             destruct (eqb_spec b (kb_name u)) as [->|]; [contradiction|]. rewrite app_nil_r. reflexivity.
        * intros b Hb. rewrite B by (destruct Hb as [Hb|Hb]; [left; intros X; apply Hb; right; exact X|right; exact Hb]).
          rewrite olds_kappend. destruct (eqb_spec b (kb_name u)) as [->|]; [|rewrite app_nil_r; reflexivity].
          destruct Hb as [Hb|Hb]; [exfalso; apply Hb; left; reflexivity|congruence].
        * intros x. rewrite C, keys_kappend. cbn [In]. split.
          -- intros [[->|?]|[? ?]]; auto.
          -- intros [?|[[<-|?] ?]]; auto.
        * intros W. apply D, wf_kappend, W.
  Qed.
  Lemma xcolumn_spec us d i d' : NoDup (map kb_name us) -> xcolumn L us d i = Ok d' ->
    (forall b, In b (map kb_name us) -> modb b = false -> exists s, colsym b i = Ok s /\ olds d' b = olds d b ++ [s]) /\
    (forall x, In x (dkeys d') -> In x (dkeys d) \/ In x (map kb_name us)) /\
    (forall x, In x (dkeys d) \/ (In x (map kb_name us) /\ modb x = false) -> In x (dkeys d')) /\
    (dict_wf d -> dict_wf d').
  Proof.
    intros N. unfold xcolumn, colsym. destruct (nth_error (layers L) i) as [l|]; intros E.
    - destruct (@fold_layer l us d d' N E) as (A & _ & C & D). split; [exact A|]. split; [intros x; rewrite C; tauto|]. split; [intros x; rewrite C; tauto|exact D].
    - assert (d' = fold_left (fun d b => kappend d (kb_name b) "NoSymbol") us d) as -> by congruence. split; [|split; [|split]].
      + intros b Hb _. exists "NoSymbol". split; [reflexivity|]. rewrite fold_nosym by exact N. apply mem_In in Hb. rewrite Hb. reflexivity.
      + intros x. rewrite fold_nosym_keys. tauto.
      + intros x. rewrite fold_nosym_keys. tauto.
      + apply fold_nosym_wf.
  Qed.
  Lemma xcolumns_spec us is : forall d d', NoDup (map kb_name us) -> foldM (xcolumn L us) is d = Ok d' ->
    (forall b, In b (map kb_name us) -> modb b = false -> exists ss, mapM (colsym b) is = Ok ss /\ olds d' b = olds d b ++ ss) /\
    (forall x, In x (dkeys d') -> In x (dkeys d) \/ In x (map kb_name us)) /\
    (forall x, In x (dkeys d) -> In x (dkeys d')) /\
    (is <> [] -> forall x, In x (map kb_name us) -> modb x = false -> In x (dkeys d')) /\
    (dict_wf d -> dict_wf d').
  Proof.
    induction is as [|i is IH]; intros d d' N E; cbn [foldM] in E.
    - assert (d' = d) as -> by congruence. split; [|split; [auto|split; [auto|split; [congruence|auto]]]].
      intros b _ _. exists []. split; [reflexivity|]. rewrite app_nil_r. reflexivity.
    - destruct (xcolumn L us d i) as [d1|] eqn:E1; cbn [bind] in E; [|discriminate].
      destruct (@xcolumn_spec us d i d1 N E1) as (A & B & C & D). destruct (IH _ _ N E) as (A' & B' & C' & _ & D'). split; [|split; [|split; [|split]]].
      + intros b Hb M. destruct (A b Hb M) as (s & Es & Eo). destruct (A' b Hb M) as (ss & Ess & Eo'). exists (s :: ss). split.
        * cbn [mapM]. rewrite Es. cbn [bind]. rewrite Ess. reflexivity.
        * rewrite Eo', Eo, <- app_assoc. reflexivity.
      + intros x Hx. apply B' in Hx. destruct Hx as [Hx|Hx]; [|auto]. apply B in Hx. exact Hx.
      + intros x Hx. apply C', C. auto.
      + intros _ x Hx M. apply C', C. auto.
      + auto.
  Qed.
  (** and conversely *)
  Lemma fold_layer_Ok l us : forall d, (forall b, In b us -> modb (kb_name b) = false -> simple_cell (dget (llayout l) (kb_name b))) ->
    exists d', foldM (lstep l) us d = Ok d'.
  Proof.
    induction us as [|u us IH]; intros d H; cbn [foldM]; [eauto|]. unfold lstep at 1. fold (modb (kb_name u)). destruct (modb (kb_name u)) eqn:M; cbn [bind].
    - apply IH. intros b Hb. apply H. right; exact Hb.
    - destruct (keysym_Ok (H u (or_introl eq_refl) M)) as [s ->]. cbn [bind]. apply IH. intros b Hb. apply H. right; exact Hb.
  Qed.
  Lemma xcolumns_Ok us is : forall d, (forall i l b, In i is -> nth_error (layers L) i = Some l -> In b us -> modb (kb_name b) = false -> simple_cell (dget (llayout l) (kb_name b))) ->
    exists d', foldM (xcolumn L us) is d = Ok d'.
  Proof.
    induction is as [|i is IH]; intros d H; cbn [foldM]; [eauto|].
    assert (X : exists d1, xcolumn L us d i = Ok d1).
    { unfold xcolumn. destruct (nth_error (layers L) i) as [l|] eqn:E; [|eauto]. apply fold_layer_Ok. intros b Hb M. eapply H; [left; reflexivity|exact E|exact Hb|exact M]. }
    destruct X as [d1 ->]. cbn [bind]. apply IH. intros; eapply H; eauto. right; assumption.
  Qed.
End Column.

(** The modifier assignments in order *)
Definition all_mods (ls : list layer) : list (nat * bset) := flat_map (fun il => map (pair (fst il)) (lmods (snd il))) (enumerate ls).
Lemma foldM_app {A S} (f : S -> A -> res S) l1 l2 s : foldM f (l1 ++ l2) s = do s' <- foldM f l1 s; foldM f l2 s'.
Proof. revert s; induction l1 as [|x l1 IH]; intros s; cbn [app foldM]; [reflexivity|]. destruct (f s x); cbn [bind]; [apply IH|reflexivity]. Qed.
Lemma foldM_map {A B S} (f : S -> B -> res S) (g : A -> B) l s : foldM f (map g l) s = foldM (fun s x => f s (g x)) l s.
Proof. revert s; induction l as [|x l IH]; intros s; cbn [map foldM]; [reflexivity|]. destruct (f s (g x)); cbn [bind]; [apply IH|reflexivity]. Qed.
Lemma xmodifiers_flat L d : xmodifiers L d = foldM (fun d im => xmodifier (fst im) d (snd im)) (all_mods (layers L)) d.
Proof.
  unfold xmodifiers, all_mods. generalize (enumerate (layers L)) as e. intros e. revert d. induction e as [|[i l] e IH]; intros d; cbn [foldM flat_map]; [reflexivity|].
  rewrite foldM_app, foldM_map. cbn [fst snd]. destruct (foldM (xmodifier i) (lmods l) d) as [d1|] eqn:E.
  - cbn [bind]. exact (IH d1).
  - reflexivity.
Qed.
Definition mod_ok (im : nat * bset) : Prop := elems (snd im) = [] \/ exists b v, elems (snd im) = [b] /\ nth_error layerMap (fst im) = Some v.
Definition assigned (im : nat * bset) (b : string) (v : list string) : Prop := elems (snd im) = [b] /\ nth_error layerMap (fst im) = Some v.
Lemma xmodifier_spec i d m d' : xmodifier i d m = Ok d' -> (elems m = [] /\ d' = d) \/ exists b v, assigned (i, m) b v /\ d' = dset d b v.
Proof.
  unfold xmodifier, assigned. cbn [fst snd]. destruct (elems m) as [|b [|c r]]; cbn [List.length Nat.leb assert_ bind]; [intros [= <-]; auto| |discriminate].
  destruct (nth_error layerMap i) as [v|]; cbn [of_opt bind]; [|discriminate]. intros [= <-]. right. exists b, v. auto.
Qed.
Lemma xmods_spec ims : forall d d', foldM (fun d im => xmodifier (fst im) d (snd im)) ims d = Ok d' ->
  Forall mod_ok ims /\ (dict_wf d -> dict_wf d') /\
  (exists new, dkeys d' = dkeys d ++ new /\ forall x, In x new -> exists im v, In im ims /\ assigned im x v) /\
  (forall b, (forall im, In im ims -> elems (snd im) <> [b]) -> dget d' b = dget d b) /\
  (forall im b v post, (exists pre, ims = pre ++ im :: post) -> assigned im b v -> (forall im', In im' post -> elems (snd im') <> [b]) -> dget d' b = Some v).
Proof.
  induction ims as [|im ims IH]; intros d d' E; cbn [foldM] in E.
  - assert (d' = d) as -> by congruence. split; [constructor|]. split; [auto|]. split; [exists []; split; [rewrite app_nil_r; reflexivity|intros x []]|].
    split; [auto|]. intros im b v post [[|] X]; discriminate.
  - destruct (xmodifier (fst im) d (snd im)) as [d1|] eqn:E1; cbn [bind] in E; [|discriminate].
    destruct (IH _ _ E) as (A & W & (new & Kn & Hn) & C & D).
    assert (LA : forall im0 b v post, (exists pre, ims = pre ++ im0 :: post) -> assigned im0 b v -> (forall im', In im' post -> elems (snd im') <> [b]) -> dget d' b = Some v) by exact D.
    assert (Tail : forall im0 b v post, (exists pre, im :: ims = pre ++ im0 :: post) -> assigned im0 b v -> (forall im', In im' post -> elems (snd im') <> [b]) ->
       (im0 = im /\ post = ims) \/ dget d' b = Some v).
    { intros im0 b v post [[|p pre] X] Ha Hp; cbn [app] in X; [left; split; congruence|right]. apply (D im0 b v post); [exists pre; congruence|exact Ha|exact Hp]. }
    apply xmodifier_spec in E1. destruct E1 as [[E0 ->]|(b0 & v0 & As & ->)].
    + split; [constructor; [left; exact E0|exact A]|]. split; [exact W|]. split; [|split].
      * exists new. split; [exact Kn|]. intros x Hx. destruct (Hn x Hx) as (im' & v & ? & ?). exists im', v. split; [right|]; assumption.
      * intros b Hb. apply C. intros im' Hi. apply Hb. right; exact Hi.
      * intros im0 b v post X Ha Hp. destruct (Tail im0 b v post X Ha Hp) as [[-> ->]|T]; [|exact T]. exfalso. destruct Ha as [Ha _]. congruence.
    + split; [constructor; [right; exists b0, v0; exact As|exact A]|]. split; [intros Wd; apply W, dset_wf, Wd|]. split; [|split].
      * assert (Hs : In b0 (dkeys d) /\ dkeys (dset d b0 v0) = dkeys d \/ ~ In b0 (dkeys d) /\ dkeys (dset d b0 v0) = dkeys d ++ [b0]).
        { clear. induction d as [|[k w] d IH]; [right; split; [intros []|reflexivity]|]. cbn [dset]. destruct (eqb_spec b0 k) as [->|N]; [left; split; [left|]; reflexivity|].
          unfold dkeys in *. cbn [map fst In app]. destruct IH as [[I ->]|[I ->]]; [left; auto|right]. split; [|reflexivity]. intros [X|X]; [congruence|contradiction]. }
        destruct Hs as [[_ Hs]|[_ Hs]]; rewrite Hs in Kn.
        -- exists new. split; [exact Kn|]. intros x Hx. destruct (Hn x Hx) as (im' & v & ? & ?). exists im', v. split; [right|]; assumption.
        -- exists (b0 :: new). rewrite <- app_assoc in Kn. split; [exact Kn|]. intros x [<-|Hx]; [exists im, v0; split; [left; reflexivity|exact As]|].
           destruct (Hn x Hx) as (im' & v & ? & ?). exists im', v. split; [right|]; assumption.
      * intros b Hb. rewrite C by (intros im' Hi; apply Hb; right; exact Hi). rewrite dget_dset. destruct (eqb_spec b b0) as [->|]; [|reflexivity].
        exfalso. apply (Hb im); [left; reflexivity|]. apply As.
      * intros im0 b v post X Ha Hp. destruct (Tail im0 b v post X Ha Hp) as [[-> ->]|T]; [|exact T].
        rewrite C by exact Hp. destruct Ha as [Ha1 Ha2], As as [As1 As2]. cbn [fst snd] in As1, As2. assert (b0 = b) as -> by congruence. rewrite dget_dset_same. congruence.
Qed.
Lemma xmods_Ok ims : Forall mod_ok ims -> forall d, exists d', foldM (fun d im => xmodifier (fst im) d (snd im)) ims d = Ok d'.
Proof.
  induction 1 as [|im ims H F IH]; intros d; cbn [foldM]; [eauto|]. unfold xmodifier. destruct H as [H|(b & v & H & Hv)]; rewrite H; cbn [List.length Nat.leb assert_ bind].
  - apply IH.
  - rewrite Hv. cbn [of_opt bind]. apply IH.
Qed.

(** Entries of [all_mods] *)
Fixpoint mods_from (k : nat) (ls : list layer) : list (nat * bset) :=
  match ls with [] => [] | l :: ls' => map (pair k) (lmods l) ++ mods_from (S k) ls' end.
Lemma all_mods_from ls : all_mods ls = mods_from 0 ls.
Proof.
  unfold all_mods, enumerate. generalize 0 as k. induction ls as [|l ls IH]; intros k; [reflexivity|].
  cbn [List.length seq combine flat_map mods_from fst snd]. rewrite IH. reflexivity.
Qed.
Lemma mods_from_In k ls i m : In (i, m) (mods_from k ls) <-> exists j l, i = k + j /\ nth_error ls j = Some l /\ In m (lmods l).
Proof.
  revert k; induction ls as [|l ls IH]; intros k; cbn [mods_from].
  - split; [intros []|]. intros ([|] & l & _ & X & _); discriminate.
  - rewrite in_app_iff, IH, in_map_iff. split.
    + intros [(m' & E & Hm)|(j & l' & -> & E & Hm)].
      * inversion E; subst. exists 0, l. rewrite Nat.add_0_r. auto.
      * exists (S j), l'. split; [lia|auto].
    + intros ([|j] & l' & -> & E & Hm).
      * left. exists m. rewrite Nat.add_0_r. cbn in E. inversion E; subst. auto.
      * right. exists j, l'. split; [lia|auto].
Qed.
Lemma all_mods_In ls i m : In (i, m) (all_mods ls) <-> exists l, nth_error ls i = Some l /\ In m (lmods l).
Proof. rewrite all_mods_from, mods_from_In. split; [intros (j & l & -> & H); exists l; exact H|intros (l & H); exists i, l; split; [reflexivity|exact H]]. Qed.
Lemma last_split {A} (P : A -> Prop) (dec : forall x, P x \/ ~ P x) l x : In x l -> P x ->
  exists pre y post, l = pre ++ y :: post /\ P y /\ forall z, In z post -> ~ P z.
Proof.
  assert (G : forall l, (forall z, In z l -> ~ P z) \/ exists pre y post, l = pre ++ y :: post /\ P y /\ forall z, In z post -> ~ P z).
  { clear - dec. intros l. induction l as [|a l [N|(pre & y & post & -> & Q)]]; [left; intros z []| |].
    - destruct (dec a) as [H|H]; [right; exists [], a, l; auto|left]. intros z [<-|I]; auto.
    - right. exists (a :: pre), y, post. split; [reflexivity|exact Q]. }
  intros Hx Px. destruct (G l) as [N|H]; [exfalso; exact (N x Hx Px)|exact H].
Qed.
Lemma mods_from_last k ls i l b : nth_error ls i = Some l -> In (frozenset [b]) (lmods l) ->
  (forall j l', i < j -> nth_error ls j = Some l' -> ~ In (frozenset [b]) (lmods l')) ->
  exists pre post, mods_from k ls = pre ++ (k + i, frozenset [b]) :: post /\ forall im, In im post -> snd im <> frozenset [b].
Proof.
  revert k i; induction ls as [|l0 ls IH]; intros k [|i] E Hm Hl; try discriminate; cbn [nth_error mods_from] in *.
  - assert (l0 = l) as -> by congruence.
    destruct (@last_split _ (fun m => m = frozenset [b])) with (l := lmods l) (x := frozenset [b]) as (pre & y & post & E' & -> & Hp); [|exact Hm|reflexivity|].
    { intros x. destruct (eqb_spec x (frozenset [b])); auto. }
    rewrite E', map_app. cbn [map]. exists (map (pair k) pre), (map (pair k) post ++ mods_from (S k) ls). rewrite Nat.add_0_r, <- app_assoc. split; [reflexivity|].
    intros [i m] Hi. cbn [snd]. apply in_app_iff in Hi. destruct Hi as [Hi|Hi].
    + apply in_map_iff in Hi. destruct Hi as (m' & X & Hm'). assert (m' = m) as -> by congruence. exact (Hp m Hm').
    + apply mods_from_In in Hi. destruct Hi as (j & l' & _ & Ej & Hj). intros ->. apply (Hl (S j) l'); [lia|exact Ej|exact Hj].
  - destruct (IH (S k) i E Hm) as (pre & post & E' & Hp).
    { intros j l' Hj Ej. apply (Hl (S j) l'); [lia|exact Ej]. }
    exists (map (pair k) (lmods l0) ++ pre), post. rewrite E', <- app_assoc. split; [|exact Hp]. replace (S k + i) with (k + S i) by lia. reflexivity.
Qed.
Lemma elems_single m b : elems m = [b] <-> m = frozenset [b].
Proof.
  split; [intros E; apply bset_eq; rewrite E|intros ->]; reflexivity.
Qed.

(** Keys *)
Lemma button_spec kb n k : kbd_ok kb -> (button kb n = Ok k <-> In k (keys kb) /\ kb_name k = n).
Proof.
  unfold button, kbd_ok. generalize (keys kb) as q. intros q N. split.
  - destruct (find _ q) as [k'|] eqn:E; cbn [of_opt]; [|discriminate]. intros [= ->]. apply find_some in E. destruct E as [I E].
    split; [exact I|]. apply String.eqb_eq, E.
  - intros [I <-]. induction q as [|a q IH]; [destruct I|]. cbn [find]. cbn [map] in N. inversion N as [|? ? Na Nq]; subst.
    destruct (String.eqb_spec (kb_name a) (kb_name k)) as [E|E].
    + destruct I as [->|I]; [reflexivity|]. exfalso. apply Na. rewrite E. apply in_map, I.
    + destruct I as [->|I]; [congruence|]. apply IH; assumption.
Qed.
Lemma button_exists kb n : kbd_ok kb -> In n (map kb_name (keys kb)) -> exists k, button kb n = Ok k.
Proof. intros N I. apply in_map_iff in I. destruct I as (k & E & I). exists k. apply button_spec; auto. Qed.
Lemma NoDup_map_via {A B C} (f : A -> B) (g : A -> C) l : NoDup (map f l) -> (forall x y, In x l -> In y l -> g x = g y -> f x = f y) -> NoDup (map g l).
Proof.
  induction l as [|a l IH]; intros N H; cbn [map] in *; [constructor|]. inversion N as [|? ? Na Nl]; subst. constructor.
  - intros I. apply in_map_iff in I. destruct I as (x & E & I). apply Na. rewrite <- (H x a); [apply in_map, I|right; exact I|left; reflexivity|exact E].
  - apply IH; [exact Nl|]. intros x y Hx Hy. apply H; right; assumption.
Qed.
Definition taken_keys (kb : kbd) : list kbutton := unique (keys kb) kb_xorg.
Lemma taken_codes kb : NoDup (map kb_xorg (taken_keys kb)).
Proof. unfold taken_keys. rewrite C52_keys. apply C52_firsts. Qed.
Lemma taken_In kb b : In b (taken_keys kb) <-> taken_x kb b.
Proof. unfold taken_keys. rewrite C52_last. reflexivity. Qed.
Lemma taken_incl kb b : In b (taken_keys kb) -> In b (keys kb).
Proof. rewrite taken_In. intros (k1 & k2 & -> & _). apply in_elt. Qed.
Lemma name_inj kb a b : kbd_ok kb -> In a (keys kb) -> In b (keys kb) -> kb_name a = kb_name b -> a = b.
Proof.
  intros N Ha Hb E. assert (X : button kb (kb_name b) = Ok a) by (apply button_spec; auto). assert (Y : button kb (kb_name b) = Ok b) by (apply button_spec; auto). congruence.
Qed.
Lemma taken_names kb : kbd_ok kb -> NoDup (map kb_name (taken_keys kb)).
Proof.
  intros N. apply NoDup_map_via with (f := kb_xorg); [apply taken_codes|]. intros x y Hx Hy E. f_equal. apply (@name_inj kb); auto using taken_incl.
Qed.
Lemma NoDup_map_inj {A B} (f : A -> B) l x y : NoDup (map f l) -> In x l -> In y l -> f x = f y -> x = y.
Proof.
  induction l as [|a l IH]; intros N Hx Hy E; [destruct Hx|]. cbn [map] in N. inversion N as [|? ? Na Nl]; subst.
  destruct Hx as [->|Hx], Hy as [->|Hy]; auto; exfalso; apply Na; [rewrite E|rewrite <- E]; apply in_map; assumption.
Qed.

(** Lines *)
Definition line_of (kb : kbd) (bv : string * list string) (l : xline) : Prop :=
  exists k, button kb (fst bv) = Ok k /\ l = mkX (fst bv) (kb_xorg k) (snd bv).
Lemma find_app {A} (p : A -> bool) l l' : find p (l ++ l') = match find p l with Some x => Some x | None => find p l' end.
Proof. induction l as [|x l IH]; cbn; [reflexivity|]. destruct (p x); [reflexivity|exact IH]. Qed.
Lemma effective_last kb d lines d1 x v d2 kx : Forall2 (line_of kb) d lines -> d = d1 ++ (x, v) :: d2 -> button kb x = Ok kx ->
  (forall y w ky, In (y, w) d2 -> button kb y = Ok ky -> kb_xorg ky <> kb_xorg kx) -> effective lines (kb_xorg kx) = Some v.
Proof.
  intros F -> Bx H. apply Forall2_app_inv_l in F. destruct F as (l1 & l2 & F1 & F2 & ->). inversion F2 as [|? ln ? l3 Hl F3]; subst.
  unfold effective. rewrite rev_app_distr. cbn [rev]. rewrite <- app_assoc, find_app.
  destruct (find _ (rev l3)) as [z|] eqn:E.
  - exfalso. apply find_some in E. destruct E as [Iz Ez]. apply in_rev in Iz. apply N.eqb_eq in Ez.
    clear - F3 Iz Ez H. induction F3 as [|[y w] l d2 l3 (ky & By & ->) F IH]; [destruct Iz|]. destruct Iz as [<-|Iz].
    + cbn [xcode fst snd] in *. exact (H y w ky (or_introl eq_refl) By Ez).
    + apply IH; [intros; eapply H; eauto; right; eassumption|exact Iz].
  - destruct Hl as (k & Bk & ->). cbn [fst snd] in *. assert (k = kx) as -> by congruence. cbn. rewrite N.eqb_refl. reflexivity.
Qed.
Lemma mapM_lines kb d lines : mapM (fun bv => do b <- button kb (fst bv); Ok (mkX (fst bv) (kb_xorg b) (snd bv))) d = Ok lines -> Forall2 (line_of kb) d lines.
Proof.
  intros E. apply mapM_Ok_inv in E. induction E as [|[x v] l d ls H F IH]; constructor; [|exact IH].
  cbn [fst snd] in H. destruct (button kb x) as [k|] eqn:B; cbn [bind] in H; [|discriminate]. exists k. split; [exact B|]. cbn [fst snd] in *. inversion H. reflexivity.
Qed.
Lemma prefix_split {A} (a : list A) x b K n : a ++ x :: b = K ++ n -> ~ In x K -> exists r, a = K ++ r.
Proof.
  revert a; induction K as [|k K IH]; intros a E N; [exists a; reflexivity|]. destruct a as [|y a]; cbn [app] in E.
  - exfalso. apply N. left. congruence.
  - assert (y = k) as -> by congruence. destruct (IH a) as [r ->]; [congruence|intros X; apply N; right; exact X|]. exists r. reflexivity.
Qed.

Section Xmodmap.
  Variables (kb : kbd) (ls : list layer) (lines : list xline).
  Hypothesis Hkb : kbd_ok kb.
  Hypothesis HE : renderXmodmap kb (layout_new ls) = Ok lines.
  Let L := layout_new ls.
  Lemma modb_spec b : modb L b = true <-> is_modifier ls b.
  Proof. unfold modb, L. apply C08_isModifier. Qed.
  Lemma assigned_modifier im b v : In im (all_mods ls) -> assigned im b v -> is_modifier ls b.
  Proof.
    destruct im as [i m]. intros I [E _]. cbn [snd] in E. apply elems_single in E. subst m. apply all_mods_In in I. destruct I as (l & El & Hm).
    exists l. split; [eapply nth_error_In; eassumption|exact Hm].
  Qed.
  Lemma render_parts : exists d0 d : keycodes, dict_wf d /\ Forall2 (line_of kb) d lines /\
    (forall b, In b (taken_keys kb) -> modb L (kb_name b) = false -> exists ss, mapM (colsym L (kb_name b)) xorder = Ok ss /\ dget d (kb_name b) = Some ss) /\
    (forall x, In x (dkeys d0) -> In x (map kb_name (taken_keys kb))) /\
    (exists new, dkeys d = dkeys d0 ++ new /\ forall x, In x new -> is_modifier ls x) /\
    (forall i l b, nth_error ls i = Some l -> In (frozenset [b]) (lmods l) ->
       (forall j l', i < j -> nth_error ls j = Some l' -> ~ In (frozenset [b]) (lmods l')) -> exists v, nth_error layerMap i = Some v /\ dget d b = Some v).
  Proof.
    unfold renderXmodmap in HE. fold L (taken_keys kb) in HE.
    destruct (foldM (xcolumn L (taken_keys kb)) xorder []) as [d0|] eqn:E0; cbn [bind] in HE; [|discriminate].
    destruct (xmodifiers L d0) as [d|] eqn:E1; cbn [bind] in HE; [|discriminate]. apply mapM_lines in HE.
    destruct (@xcolumns_spec L (taken_keys kb) xorder [] d0 (taken_names Hkb) E0) as (A & B & _ & C & W).
    rewrite xmodifiers_flat in E1. unfold L in E1. rewrite layout_new_layers in E1.
    destruct (xmods_spec _ _ E1) as (M1 & M2 & (new & M3 & M4) & M5 & M6).
    exists d0, d. split; [apply M2, W; constructor|]. split; [exact HE|]. split; [|split; [|split]].
    - intros b Hb Mb. destruct (A (kb_name b)) as (ss & Ess & Eo); [apply in_map, Hb|exact Mb|]. exists ss. split; [exact Ess|].
      rewrite M5.
      + assert (K : In (kb_name b) (dkeys d0)) by (apply C; [discriminate|apply in_map, Hb|exact Mb]). apply dget_key in K. destruct K as [w Ew].
        unfold olds in Eo. rewrite Ew in Eo. cbn [dget] in Eo. rewrite Ew. f_equal. exact Eo.
      + intros [i m] I E. cbn [snd] in E. assert (X : modb L (kb_name b) = true).
        { apply modb_spec. apply elems_single in E. subst m. apply all_mods_In in I. destruct I as (l & El & Hm). exists l. split; [eapply nth_error_In; eassumption|exact Hm]. }
        congruence.
    - intros x Hx. destruct (B x Hx) as [[]|H]. exact H.
    - exists new. split; [exact M3|]. intros x Hx. destruct (M4 x Hx) as (im & v & Hi & Ha). eapply assigned_modifier; eassumption.
    - intros i l b El Hm Hl. destruct (@mods_from_last 0 ls i l b El Hm Hl) as (pre & post & E & Hp). rewrite <- all_mods_from in E. cbn [Nat.add] in E.
      assert (I : In (i, frozenset [b]) (all_mods ls)) by (rewrite E; apply in_elt).
      rewrite Forall_forall in M1. specialize (M1 _ I). cbn [mod_ok fst snd] in M1. destruct M1 as [M1|(b' & v & M1 & Hv)]; [discriminate|].
      exists v. split; [exact Hv|]. cbn [snd fst] in *. assert (b' = b) as -> by (cbn in M1; congruence).
      apply (M6 (i, frozenset [b]) b v post); [exists pre; exact E|split; [exact M1|exact Hv]|]. intros im Hi X. apply elems_single in X. exact (Hp im Hi X).
  Qed.
  Lemma split_entry (d : keycodes) x v : dict_wf d -> dget d x = Some v -> exists d1 d2, d = d1 ++ (x, v) :: d2 /\ forall y w, In (y, w) d2 -> y <> x.
  Proof.
    intros W E. apply dget_In in E. apply in_split in E. destruct E as (d1 & d2 & ->). exists d1, d2. split; [reflexivity|].
    intros y w I ->. unfold dict_wf, dkeys in W. rewrite map_app in W. cbn [map fst] in W. apply NoDup_remove_2 in W. apply W, in_app_iff. right. apply in_map with (f := fst) in I. exact I.
  Qed.
  (** the line of a key that is no modifier *)
  Lemma text_line b : taken_x kb b -> ~ is_modifier ls (kb_name b) ->
    (forall y, In y (keys kb) -> is_modifier ls (kb_name y) -> kb_xorg y <> kb_xorg b) ->
    exists ss, mapM (colsym L (kb_name b)) xorder = Ok ss /\ effective lines (kb_xorg b) = Some ss.
  Proof.
    intros Tb Nb Hm. destruct render_parts as (d0 & d & W & F & A & B & (new & Kd & Hn) & _).
    assert (Mb : modb L (kb_name b) = false) by (destruct (modb L (kb_name b)) eqn:E; [apply modb_spec in E; contradiction|reflexivity]).
    pose proof (proj2 (taken_In kb b) Tb) as Ib. destruct (A b Ib Mb) as (ss & Ess & Eg). exists ss. split; [exact Ess|].
    destruct (split_entry _ W Eg) as (d1 & d2 & E & Hd).
    assert (Bb : button kb (kb_name b) = Ok b) by (apply button_spec; auto using taken_incl).
    eapply effective_last; [exact F|exact E|exact Bb|]. intros y w ky Iy By Ec.
    assert (Ky : In y (dkeys d)) by (rewrite E; unfold dkeys; rewrite map_app; apply in_app_iff; right; right; apply in_map with (f := fst) in Iy; exact Iy).
    pose proof (proj1 (button_spec y ky Hkb) By) as [Iky Eky]. rewrite Kd in Ky. apply in_app_iff in Ky. destruct Ky as [Ky|Ky].
    - apply B in Ky. apply in_map_iff in Ky. destruct Ky as (u & Eu & Iu).
      assert (u = ky) as -> by (apply (@name_inj kb); auto using taken_incl; congruence).
      assert (ky = b) by (eapply NoDup_map_inj; [apply taken_codes|exact Iu|exact Ib|exact Ec]). apply (Hd y w Iy). congruence.
    - apply Hn in Ky. apply (Hm ky Iky); [rewrite Eky; exact Ky|exact Ec].
  Qed.
  (** the line of a modifier *)
  Lemma modifier_line i l x : In x (keys kb) -> nth_error ls i = Some l -> In (frozenset [kb_name x]) (lmods l) ->
    (forall j l', i < j -> nth_error ls j = Some l' -> ~ In (frozenset [kb_name x]) (lmods l')) ->
    (forall y, In y (keys kb) -> is_modifier ls (kb_name y) -> kb_xorg y = kb_xorg x -> y = x) ->
    exists v, nth_error layerMap i = Some v /\ effective lines (kb_xorg x) = Some v.
  Proof.
    intros Ix El Hm Hl Hu. destruct render_parts as (d0 & d & W & F & _ & B & (new & Kd & Hn) & A).
    destruct (A i l (kb_name x) El Hm Hl) as (v & Ev & Eg). exists v. split; [exact Ev|].
    destruct (split_entry _ W Eg) as (d1 & d2 & E & Hd).
    assert (Bb : button kb (kb_name x) = Ok x) by (apply button_spec; auto).
    eapply effective_last; [exact F|exact E|exact Bb|]. intros y w ky Iy By Ec.
    assert (Ky2 : In y (map fst d2)) by (apply in_map with (f := fst) in Iy; exact Iy).
    assert (Ky : In y (dkeys d)) by (rewrite E; unfold dkeys; rewrite map_app; apply in_app_iff; right; right; exact Ky2).
    pose proof (proj1 (button_spec y ky Hkb) By) as [Iky Eky].
    assert (Nm : ~ is_modifier ls y).
    { intros M. apply (Hd y w Iy). rewrite <- Eky. f_equal. apply Hu; [exact Iky|rewrite Eky; exact M|exact Ec]. }
    pose proof Ky as Ky'. rewrite Kd in Ky'. apply in_app_iff in Ky'. destruct Ky' as [Ky'|Ky']; [|apply Hn in Ky'; contradiction].
    assert (Uy : exists u, kb_name u = y /\ In u (taken_keys kb)) by (apply B in Ky'; apply in_map_iff in Ky'; exact Ky').
    destruct Uy as (u & Eu & Iu). assert (u = ky) as -> by (apply (@name_inj kb); auto using taken_incl; congruence).
    destruct (in_dec String.string_dec (kb_name x) (dkeys d0)) as [Ix0|Nx0].
    - apply B in Ix0. apply in_map_iff in Ix0. destruct Ix0 as (u & Eux & Iux).
      assert (u = x) as -> by (apply (@name_inj kb); auto using taken_incl).
      assert (ky = x) by (eapply NoDup_map_inj; [apply taken_codes|exact Iu|exact Iux|exact Ec]). apply (Hd y w Iy). congruence.
    - assert (Kx : map fst d1 ++ kb_name x :: map fst d2 = dkeys d0 ++ new) by (rewrite <- Kd, E; unfold dkeys; rewrite map_app; reflexivity).
      destruct (prefix_split _ _ _ _ _ Kx Nx0) as [r Er].
      unfold dict_wf in W. rewrite E in W. unfold dkeys in W. rewrite map_app in W. cbn [map fst] in W. rewrite Er in W.
      assert (X : forall (a b : list string) z, NoDup (a ++ b) -> In z a -> In z b -> False).
      { clear. induction a as [|c a IH]; intros b z N Ha Hb; [destruct Ha|]. inversion N as [|? ? Nc Na]; subst. destruct Ha as [->|Ha]; [apply Nc, in_app_iff; auto|eapply IH; eauto]. }
      apply (X _ _ y W); [apply in_app_iff; left; exact Ky'|right; exact Ky2].
  Qed.
End Xmodmap.
Lemma Forall2_nth {A B} (R : A -> B -> Prop) l l' n x : Forall2 R l l' -> nth_error l n = Some x -> exists y, nth_error l' n = Some y /\ R x y.
Proof. intros F; revert n; induction F as [|a b l l' H F IH]; intros [|n] E; cbn [nth_error] in *; try discriminate; [exists b; split; [reflexivity|congruence]|apply IH, E]. Qed.
Lemma column_layer i v : nth_error layerMap i = Some v -> nth_error xorder (match v with s :: _ => column s | [] => 0 end) = Some i.
Proof. do 4 (destruct i as [|i]; [cbn [nth_error layerMap]; intros [= <-]; reflexivity|]). destruct i; discriminate. Qed.
Lemma column_text ls b ss c i l : mapM (colsym (layout_new ls) b) xorder = Ok ss -> nth_error xorder c = Some i -> nth_error ls i = Some l ->
  match nth_error ss c with Some s => keysym_char s | None => None end = one_char (dget (llayout l) b).
Proof.
  intros E Ec El. apply mapM_Ok_inv in E. destruct (Forall2_nth _ E Ec) as (s & -> & Hs). unfold colsym in Hs. rewrite layout_new_layers, El in Hs.
  apply keysym_spec in Hs. apply Hs.
Qed.
(** * Theorems: xmodmap *)
Lemma x_plain kb ls lines b l : kbd_ok kb -> renderXmodmap kb (layout_new ls) = Ok lines -> taken_x kb b -> ~ is_modifier ls (kb_name b) ->
  (forall y, In y (keys kb) -> is_modifier ls (kb_name y) -> kb_xorg y <> kb_xorg b) -> nth_error ls 0 = Some l ->
  x_types lines None (kb_xorg b) = one_char (dget (llayout l) (kb_name b)).
Proof.
  intros Hk E T N M El. destruct (text_line Hk E T N M) as (ss & Ess & Ef). unfold x_types, selected. rewrite Ef. eapply column_text; [exact Ess|reflexivity|exact El].
Qed.
Lemma x_held kb ls lines b x i l : kbd_ok kb -> renderXmodmap kb (layout_new ls) = Ok lines -> taken_x kb b -> ~ is_modifier ls (kb_name b) ->
  (forall y, In y (keys kb) -> is_modifier ls (kb_name y) -> kb_xorg y <> kb_xorg b) ->
  In x (keys kb) -> nth_error ls i = Some l -> In (frozenset [kb_name x]) (lmods l) ->
  (forall j l', i < j -> nth_error ls j = Some l' -> ~ In (frozenset [kb_name x]) (lmods l')) ->
  (forall y, In y (keys kb) -> is_modifier ls (kb_name y) -> kb_xorg y = kb_xorg x -> y = x) ->
  x_types lines (Some (kb_xorg x)) (kb_xorg b) = one_char (dget (llayout l) (kb_name b)).
Proof.
  intros Hk E T N M Ix El Hm Hl Hu. destruct (text_line Hk E T N M) as (ss & Ess & Ef). destruct (@modifier_line kb ls lines Hk E i l x Ix El Hm Hl Hu) as (v & Ev & Efx).
  unfold x_types, selected. rewrite Ef, Efx. eapply column_text; [exact Ess|exact (column_layer _ Ev)|exact El].
Qed.
Lemma x_columns kb ls lines b : kbd_ok kb -> renderXmodmap kb (layout_new ls) = Ok lines -> taken_x kb b -> ~ is_modifier ls (kb_name b) ->
  (forall y, In y (keys kb) -> is_modifier ls (kb_name y) -> kb_xorg y <> kb_xorg b) -> exists ss, effective lines (kb_xorg b) = Some ss /\ List.length ss = 8.
Proof.
  intros Hk E T N M. destruct (text_line Hk E T N M) as (ss & Ess & Ef). exists ss. split; [exact Ef|]. apply mapM_Ok_inv in Ess.
  assert (X : forall {A B} (R : A -> B -> Prop) l l', Forall2 R l l' -> List.length l' = List.length l) by (clear; induction 1; cbn; congruence).
  rewrite (X _ _ _ _ _ Ess). reflexivity.
Qed.
(** every line is for a key of the keyboard that the layout uses *)
Lemma mapM_lines_Ok kb d : (forall x v, In (x, v) d -> exists k, button kb x = Ok k) ->
  exists lines, mapM (fun bv => do b <- button kb (fst bv); Ok (mkX (fst bv) (kb_xorg b) (snd bv))) d = Ok lines.
Proof.
  induction d as [|[x v] d IH]; intros H; cbn [mapM]; [eauto|]. cbn [fst snd]. destruct (H x v (or_introl eq_refl)) as [k ->]. cbn [bind].
  destruct IH as [ls ->]; [intros; eapply H; right; eassumption|]. cbn [bind]. eauto.
Qed.
Definition x_exportable (kb : kbd) (ls : list layer) : Prop :=
  (forall i l b, (i < 7 \/ i = N.to_nat 99999)%nat -> nth_error ls i = Some l -> taken_x kb b -> ~ is_modifier ls (kb_name b) -> simple_cell (dget (llayout l) (kb_name b))) /\
  (forall i l m, nth_error ls i = Some l -> In m (lmods l) -> m = frozenset [] \/ (i < 4 /\ exists b, m = frozenset [b])).
Lemma elems_nil m : elems m = [] <-> m = frozenset [].
Proof. split; [intros E; apply bset_eq; rewrite E|intros ->]; reflexivity. Qed.
Lemma In_xorder i : In i xorder <-> (i < 7 \/ i = N.to_nat 99999)%nat.
Proof. unfold xorder. cbn [In]. split; [intuition (subst; lia || auto)|]. intros [H| ->]; [|tauto]. do 7 (destruct i as [|i]; [tauto|]). lia. Qed.
Lemma layerMap_lt i : (exists v, nth_error layerMap i = Some v) <-> i < 4.
Proof.
  change 4 with (List.length layerMap). rewrite <- nth_error_Some. split; [intros (v & ->); congruence|]. destruct (nth_error layerMap i); [eauto|congruence].
Qed.
Lemma mod_ok_iff i m : mod_ok (i, m) <-> m = frozenset [] \/ (i < 4 /\ exists b, m = frozenset [b]).
Proof.
  unfold mod_ok. cbn [fst snd]. split.
  - intros [E|(b & v & E & Ev)]; [left; apply elems_nil, E|right]. split; [apply layerMap_lt; eauto|]. exists b. apply elems_single, E.
  - intros [E|(H & b & E)]; [left; apply elems_nil, E|right]. apply layerMap_lt in H. destruct H as (v & Ev). exists b, v. split; [apply elems_single, E|exact Ev].
Qed.
Lemma x_success kb ls : kbd_ok kb -> mods_on kb ls -> ((exists lines, renderXmodmap kb (layout_new ls) = Ok lines) <-> x_exportable kb ls).
Proof.
  intros Hk Hm. split.
  - intros (lines & E). unfold renderXmodmap in E. fold (taken_keys kb) in E.
    destruct (foldM (xcolumn (layout_new ls) (taken_keys kb)) xorder []) as [d0|] eqn:E0; cbn [bind] in E; [|discriminate].
    destruct (xmodifiers (layout_new ls) d0) as [d|] eqn:E1; cbn [bind] in E; [|discriminate].
    destruct (@xcolumns_spec _ (taken_keys kb) xorder [] d0 (taken_names Hk) E0) as (A & _).
    rewrite xmodifiers_flat in E1. rewrite layout_new_layers in E1. destruct (xmods_spec _ _ E1) as (M1 & _).
    split.
    + intros i l b Hi El Tb Nb. apply In_xorder in Hi.
      assert (Mb : modb (layout_new ls) (kb_name b) = false) by (destruct (modb (layout_new ls) (kb_name b)) eqn:Q; [apply modb_spec in Q; contradiction|reflexivity]).
      destruct (A (kb_name b)) as (ss & Ess & _); [apply in_map, taken_In, Tb|exact Mb|]. apply mapM_Ok_inv in Ess.
      apply In_nth_error in Hi. destruct Hi as [c Ec]. destruct (Forall2_nth _ Ess Ec) as (s & _ & Hs). unfold colsym in Hs. rewrite layout_new_layers, El in Hs.
      apply keysym_spec in Hs. apply Hs.
    + intros i l m El I. rewrite Forall_forall in M1. apply mod_ok_iff, M1, all_mods_In. eauto.
  - intros [X1 X2]. unfold renderXmodmap. fold (taken_keys kb).
    destruct (@xcolumns_Ok (layout_new ls) (taken_keys kb) xorder []) as [d0 E0].
    { intros i l b Hi El Ib Mb. apply (X1 i l); [apply In_xorder, Hi|rewrite layout_new_layers in El; exact El|apply taken_In, Ib|].
      intros Q. apply modb_spec in Q. congruence. }
    rewrite E0. cbn [bind]. rewrite xmodifiers_flat, layout_new_layers. destruct (@xmods_Ok (all_mods ls)) with (d := d0) as [d E1].
    { rewrite Forall_forall. intros [i m] I. apply all_mods_In in I. destruct I as (l & El & I). apply mod_ok_iff, (X2 i l m El I). }
    rewrite E1. cbn [bind]. apply mapM_lines_Ok. intros x v I.
    destruct (@xcolumns_spec _ (taken_keys kb) xorder [] d0 (taken_names Hk) E0) as (_ & B & _).
    destruct (xmods_spec _ _ E1) as (_ & _ & (new & Kn & Hn) & _).
    apply button_exists; [exact Hk|]. assert (K : In x (dkeys d)) by (unfold dkeys; apply in_map with (f := fst) in I; exact I).
    rewrite Kn in K. apply in_app_iff in K. destruct K as [K|K].
    + destruct (B x K) as [[]|K']. apply in_map_iff in K'. destruct K' as (b & <- & Ib). apply in_map, taken_incl, Ib.
    + destruct (Hn x K) as ([i m] & w & Hi & Ha & _). cbn [snd] in Ha. apply all_mods_In in Hi. destruct Hi as (l & El & Il).
      apply (Hm l m x (nth_error_In _ _ El) Il). rewrite Ha. left. reflexivity.
Qed.

(** * Keyman *)
Lemma kcode_spec kb n c : kbd_ok kb -> (kcode kb n = Ok c <-> has_keyman kb n c).
Proof.
  intros Hk. unfold kcode, has_keyman. split.
  - destruct (button kb n) as [k|] eqn:B; cbn [bind]; [|discriminate]. intros [= <-]. apply button_spec in B; [|exact Hk]. exists k. tauto.
  - intros (k & I & <- & <-). assert (B : button kb (kb_name k) = Ok k) by (apply button_spec; auto). rewrite B. reflexivity.
Qed.
Lemma has_keyman_fun kb n c c' : kbd_ok kb -> has_keyman kb n c -> has_keyman kb n c' -> c = c'.
Proof. intros Hk H H'. apply kcode_spec in H, H'; auto. congruence. Qed.
Lemma prefix_K c : prefix "K_" c = true <-> exists s, c = ("K_" ++ s)%string.
Proof.
  split.
  - destruct c as [|a [|b c]]; cbn [prefix]; [discriminate| |].
    + destruct (Ascii.ascii_dec "K" a); discriminate.
    + destruct (Ascii.ascii_dec "K" a) as [<-|]; [|discriminate]. destruct (Ascii.ascii_dec "_" b) as [<-|]; [|discriminate]. intros _. exists c. reflexivity.
  - intros (s & ->). cbn. destruct s; reflexivity.
Qed.
Lemma kunsupported_spec c : kunsupported c = true <-> c = "CAPS" \/ exists s, c = ("K_" ++ s)%string.
Proof. unfold kunsupported. rewrite Bool.orb_true_iff, prefix_K, String.eqb_eq. tauto. Qed.
Lemma kwarn_spec kb bs w : kbd_ok kb -> kwarn kb bs = Ok w ->
  (w = true <-> exists b c, In b bs /\ has_keyman kb b c /\ (c = "CAPS" \/ exists s, c = ("K_" ++ s)%string)).
Proof.
  intros Hk. revert w; induction bs as [|b bs IH]; intros w E; cbn [kwarn] in E.
  - assert (w = false) as -> by congruence. split; [discriminate|]. intros (b & c & [] & _).
  - destruct (kcode kb b) as [c|] eqn:Ec; cbn [bind] in E; [|discriminate]. apply kcode_spec in Ec; [|exact Hk].
    destruct (kunsupported c) eqn:U.
    + assert (w = true) as -> by congruence. split; [intros _|reflexivity]. exists b, c. split; [left; reflexivity|]. split; [exact Ec|]. apply kunsupported_spec, U.
    + rewrite (IH w E). split.
      * intros (b' & c' & I & H). exists b', c'. split; [right; exact I|exact H].
      * intros (b' & c' & [<-|I] & H1 & H2); [|exists b', c'; auto].
        assert (c' = c) as -> by (eapply has_keyman_fun; eauto). apply kunsupported_spec in H2. congruence.
Qed.
Section Keyman.
  Variables (kb : kbd) (ord : bset -> list string).
  Hypothesis Hkb : kbd_ok kb.
  Hypothesis Hord : forall m, Permutation (ord m) (elems m).
  Lemma mapM_kcode ms mc : mapM (kcode kb) ms = Ok mc -> Forall2 (has_keyman kb) ms mc.
  Proof. intros E. apply mapM_Ok_inv in E. induction E; constructor; auto. apply kcode_spec; auto. Qed.
  Lemma map_codepoint t : map codepoint (map (fun c => ("U+" ++ hex4 c)%string) t) = map Some t.
  Proof. rewrite map_map. apply map_ext. intros c. apply codepoint_U. Qed.
  Lemma krule_spec m bt r : krule_of kb (ord m) bt = Ok r -> rule_for kb (m, fst bt, snd bt) r.
  Proof.
    unfold krule_of. destruct (mapM (kcode kb) (ord m)) as [mc|] eqn:E1; cbn [bind]; [|discriminate].
    destruct (kcode kb (fst bt)) as [bc|] eqn:E2; cbn [bind]; [|discriminate]. destruct (snd bt) as [t|] eqn:E3; [|discriminate]. intros [= <-].
    exists t, (ord m), mc, bc. cbn [fst snd kkeys kout]. split; [reflexivity|]. split; [apply Hord|]. split; [apply mapM_kcode, E1|].
    split; [apply kcode_spec; auto|]. split; [reflexivity|]. apply map_codepoint.
  Qed.
  Lemma kmodifier_spec l f m f' : kmodifier kb ord l f m = Ok f' -> exists rs ws, krules f' = krules f ++ rs /\ kwarned f' = kwarned f ++ ws /\
    Forall2 (rule_for kb) (map (fun bc => (m, fst bc, snd bc)) (llayout l)) rs /\ (forall m', In m' ws <-> m' = m /\ unsupported kb m).
  Proof.
    unfold kmodifier. destruct (kwarn kb (ord m)) as [w|] eqn:Ew; cbn [bind]; [|discriminate].
    destruct (mapM (krule_of kb (ord m)) (llayout l)) as [rs|] eqn:Er; cbn [bind]; [|discriminate]. intros [= <-]. cbn [krules kwarned].
    exists rs, (if w then [m] else []). split; [reflexivity|]. split; [destruct w; [reflexivity|rewrite app_nil_r; reflexivity]|]. split.
    - apply mapM_Ok_inv in Er. clear Ew. induction Er as [|bt r bts rs H F IH]; cbn [map]; constructor; [apply krule_spec, H|exact IH].
    - intros m'. apply kwarn_spec in Ew; [|exact Hkb].
      assert (U : w = true <-> unsupported kb m).
      { rewrite Ew. unfold unsupported. split; intros (b & c & I & H); exists b, c; (split; [|exact H]).
        - eapply Permutation_in; [apply Hord|exact I].
        - eapply Permutation_in; [apply Permutation_sym, Hord|exact I]. }
      destruct w; cbn [In]; split.
      + intros [<-|[]]. split; [reflexivity|]. apply U; reflexivity.
      + intros [-> _]. auto.
      + intros [].
      + intros [_ X]. apply U in X. discriminate.
  Qed.
  Lemma kmodifiers_spec l ms : forall f f', foldM (kmodifier kb ord l) ms f = Ok f' -> exists rs ws, krules f' = krules f ++ rs /\ kwarned f' = kwarned f ++ ws /\
    Forall2 (rule_for kb) (flat_map (fun m => map (fun bc => (m, fst bc, snd bc)) (llayout l)) ms) rs /\ (forall m', In m' ws <-> In m' ms /\ unsupported kb m').
  Proof.
    induction ms as [|m ms IH]; intros f f' E; cbn [foldM] in E.
    - assert (f' = f) as -> by congruence. exists [], []. rewrite !app_nil_r. split; [reflexivity|]. split; [reflexivity|]. split; [constructor|]. intros m'; cbn; tauto.
    - destruct (kmodifier kb ord l f m) as [f1|] eqn:E1; cbn [bind] in E; [|discriminate]. apply kmodifier_spec in E1. destruct E1 as (rs1 & ws1 & A1 & B1 & C1 & D1).
      destruct (IH _ _ E) as (rs & ws & A & B & C & D). exists (rs1 ++ rs), (ws1 ++ ws). rewrite !app_assoc, <- A1, <- B1.
      split; [exact A|]. split; [exact B|]. split; [apply Forall2_app; assumption|]. intros m'. rewrite in_app_iff, D1, D. cbn [In]. split.
      + intros [[-> ?]|[? ?]]; auto.
      + intros [[->|?] ?]; auto.
  Qed.
  Lemma klayers_spec ls : forall f f', foldM (fun f l => foldM (kmodifier kb ord l) (lmods l) f) ls f = Ok f' -> exists rs ws, krules f' = krules f ++ rs /\ kwarned f' = kwarned f ++ ws /\
    Forall2 (rule_for kb) (typed ls) rs /\ (forall m', In m' ws <-> (exists l, In l ls /\ In m' (lmods l)) /\ unsupported kb m').
  Proof.
    induction ls as [|l ls IH]; intros f f' E; cbn [foldM] in E.
    - assert (f' = f) as -> by congruence. exists [], []. rewrite !app_nil_r. split; [reflexivity|]. split; [reflexivity|]. split; [constructor|]. intros m'; cbn. split; [tauto|]. intros [(? & [] & _) _].
    - destruct (foldM (kmodifier kb ord l) (lmods l) f) as [f1|] eqn:E1; cbn [bind] in E; [|discriminate]. apply kmodifiers_spec in E1. destruct E1 as (rs1 & ws1 & A1 & B1 & C1 & D1).
      destruct (IH _ _ E) as (rs & ws & A & B & C & D). exists (rs1 ++ rs), (ws1 ++ ws). rewrite !app_assoc, <- A1, <- B1.
      split; [exact A|]. split; [exact B|]. split; [apply Forall2_app; assumption|]. intros m'. rewrite in_app_iff, D1, D. split.
      + intros [[? ?]|[(l' & ? & ?) ?]]; (split; [|assumption]); [exists l|exists l']; (split; [|assumption]); [left; reflexivity|right; assumption].
      + intros [(l' & [<-|?] & ?) ?]; [left; auto|right]. split; [exists l'; auto|assumption].
  Qed.
  Lemma k_rules ls f : renderKeyman kb ord (layout_new ls) = Ok f -> Forall2 (rule_for kb) (typed ls) (krules f).
  Proof.
    unfold renderKeyman. rewrite layout_new_layers. intros E. destruct (klayers_spec _ _ E) as (rs & ws & A & _ & C & _). cbn [krules app] in A. rewrite A. exact C.
  Qed.
  Lemma k_warned ls f m : renderKeyman kb ord (layout_new ls) = Ok f -> (In m (kwarned f) <-> (exists l, In l ls /\ In m (lmods l)) /\ unsupported kb m).
  Proof.
    unfold renderKeyman. rewrite layout_new_layers. intros E. destruct (klayers_spec _ _ E) as (rs & ws & _ & B & _ & D). cbn [kwarned app] in B. rewrite B. apply D.
  Qed.
  Lemma kcode_Ok n : In n (map kb_name (keys kb)) -> exists c, kcode kb n = Ok c.
  Proof. intros H. unfold kcode. destruct (@button_exists kb n Hkb H) as [k ->]. cbn [bind]. eauto. Qed.
  Lemma k_success ls : mods_on kb ls -> cells_on kb ls -> ((exists f, renderKeyman kb ord (layout_new ls) = Ok f) <-> all_text ls).
  Proof.
    intros Hm Hc. split.
    - intros (f & E) l b c Il Nm I ->. apply k_rules in E. destruct (lmods l) as [|m ms] eqn:El; [congruence|].
      assert (T : In (m, b, COther) (typed ls)).
      { unfold typed. apply in_flat_map. exists l. split; [exact Il|]. rewrite El. apply in_flat_map. exists m. split; [left; reflexivity|].
        apply in_map_iff. exists (b, COther). split; [reflexivity|exact I]. }
      clear - E T. induction E as [|x r xs rs H F IH]; [destruct T|]. destruct T as [->|T]; [|auto]. destruct H as (t & _ & _ & _ & X & _). cbn [snd] in X. discriminate X.
    - intros H. unfold renderKeyman. rewrite layout_new_layers.
      assert (G : forall q, (forall l, In l q -> In l ls) -> forall f, exists f', foldM (fun f l => foldM (kmodifier kb ord l) (lmods l) f) q f = Ok f').
      { induction q as [|l q IH]; intros Hq f; cbn [foldM]; [eauto|].
        assert (X : forall ms, (forall m, In m ms -> In m (lmods l)) -> forall f, exists f', foldM (kmodifier kb ord l) ms f = Ok f').
        { pose proof (Hq l (or_introl eq_refl)) as Il. induction ms as [|m ms IHm]; intros Hms f0; cbn [foldM]; [eauto|].
          assert (On : forall x, In x (ord m) -> exists c, kcode kb x = Ok c).
          { intros x Ix. apply kcode_Ok, (Hm l m x Il (Hms m (or_introl eq_refl))). eapply Permutation_in; [apply Hord|exact Ix]. }
          assert (Y : exists w, kwarn kb (ord m) = Ok w).
          { clear - On. induction (ord m) as [|x xs IH]; cbn [kwarn]; [eauto|]. destruct (On x (or_introl eq_refl)) as [c ->]. cbn [bind]. destruct (kunsupported c); [eauto|]. apply IH. intros; apply On; right; assumption. }
          assert (Z : exists rs, mapM (krule_of kb (ord m)) (llayout l) = Ok rs).
          { apply mapM_all. intros [b c] I. unfold krule_of. destruct (mapM_all (kcode kb) (ord m) On) as [mc ->]. cbn [bind fst snd].
            destruct (kcode_Ok b (Hc l b c Il I)) as [bc ->]. cbn [bind]. destruct c as [t|]; [eauto|]. exfalso.
            apply (H l b COther Il); [|exact I|reflexivity]. intros En. specialize (Hms m (or_introl eq_refl)). rewrite En in Hms. destruct Hms. }
          destruct Y as [w Ew], Z as [rs Er]. unfold kmodifier at 1. rewrite Ew. cbn [bind]. rewrite Er. cbn [bind]. apply IHm. intros; apply Hms; right; assumption. }
        destruct (X (lmods l) (fun m I => I) f) as [f' ->]. cbn [bind]. apply IH. intros; apply Hq; right; assumption. }
      apply G; auto.
  Qed.
End Keyman.

(** * Anysoft keyboard *)
Lemma percent_spec n : 0 < n -> (2 * Z.abs (Z.of_nat n * percent n - 10000) <= Z.of_nat n)%Z.
Proof.
  intros H. unfold percent. pose proof (Z.div_mod 10000 (Z.of_nat n)) as D. pose proof (Z.mod_pos_bound 10000 (Z.of_nat n)) as B.
  set (q := (10000 / Z.of_nat n)%Z) in *. set (r := (10000 mod Z.of_nat n)%Z) in *. 
  destruct (2 * r ?= Z.of_nat n)%Z eqn:C; [apply Z.compare_eq in C|rewrite Z.compare_lt_iff in C|rewrite Z.compare_gt_iff in C]; [destruct (Z.even q)| |]; nia.
Qed.
Lemma buttonText_spec nfc ls b ts : buttonText nfc (layout_new ls) b = Ok ts -> all_shown nfc ls b ts.
Proof.
  unfold buttonText, getButtonText, all_shown. rewrite layout_new_layers. revert ts. induction ls as [|l ls IH]; intros ts; cbn [map mapM]; [intros [= <-]; reflexivity|].
  destruct (dget (llayout l) b) as [[t|]|]; cbn [bind shown]; [|discriminate|];
    (destruct (mapM _ (map _ ls)) as [r|] eqn:E; cbn [bind]; [|discriminate]; intros [= <-]; cbn [map]; f_equal; apply IH; reflexivity).
Qed.
Lemma buttonText_Ok nfc ls b : (exists ts, buttonText nfc (layout_new ls) b = Ok ts) <-> text_key ls b.
Proof.
  unfold buttonText, getButtonText, text_key. rewrite layout_new_layers. split.
  - intros (ts & E) l I X. apply mapM_Ok_inv in E. assert (I' : In (dget (llayout l) b) (map (fun l => dget (llayout l) b) ls)) by (apply in_map_iff; eauto).
    rewrite X in I'. clear - E I'. induction E as [|x y xs ys H F IH]; [destruct I'|]. destruct I' as [->|I']; [discriminate H|auto].
  - intros H. apply mapM_all. intros c I. apply in_map_iff in I. destruct I as (l & <- & I). specialize (H l I). destruct (dget (llayout l) b) as [[t|]|]; [eauto|congruence|eauto].
Qed.
Lemma all_shown_length nfc ls b ts : all_shown nfc ls b ts -> List.length ts = List.length ls.
Proof. intros E. apply (f_equal (@List.length _)) in E. rewrite !map_length in E. congruence. Qed.
Lemma askKey_spec nfc ls b k : askKey nfc (layout_new ls) b = Ok k -> key_for nfc ls b k.
Proof.
  unfold askKey. destruct (buttonText nfc (layout_new ls) (kb_name b)) as [ts|] eqn:E; cbn [bind]; [|discriminate]. apply buttonText_spec in E.
  destruct ts as [|t0 r]; [discriminate|]. intros [= <-]. exists t0, r. split; [exact E|reflexivity].
Qed.
Lemma askKey_Ok nfc ls b : (exists k, askKey nfc (layout_new ls) b = Ok k) <-> ls <> [] /\ text_key ls (kb_name b).
Proof.
  unfold askKey. rewrite <- (buttonText_Ok nfc). split.
  - intros (k & E). destruct (buttonText nfc (layout_new ls) (kb_name b)) as [ts|] eqn:B; cbn [bind] in E; [|discriminate]. split; [|eauto].
    apply buttonText_spec, all_shown_length in B. intros ->. destruct ts; discriminate.
  - intros (N & ts & E). rewrite E. cbn [bind]. apply buttonText_spec, all_shown_length in E. destruct ts as [|t0 r]; [destruct ls; [congruence|discriminate]|eauto].
Qed.
Lemma askButtons_spec ls row b : In b (askButtons (layout_new ls) row) <-> In b (fst row ++ snd row) /\ ask_key ls b.
Proof.
  unfold askButtons, ask_key. rewrite filter_In, Bool.andb_true_iff, Bool.negb_true_iff. fold (modb (layout_new ls) (kb_name b)). rewrite <- modb_spec. unfold isLetter.
  destruct (kb_kind b), (modb (layout_new ls) (kb_name b)); intuition congruence.
Qed.
Definition in_row (row : list kbutton * list kbutton) : list kbutton := fst row ++ snd row.
Lemma rowOf_flat kb n : rowOf kb n = dgetM (dict_of (flat_map (fun ir => map (fun b => (kb_name b, fst ir)) (in_row (snd ir))) (enumerate kb))) n.
Proof.
  unfold rowOf. f_equal. unfold dict_of. generalize (enumerate kb) as q. generalize (@nil (string * nat)) as d. intros d q; revert d.
  induction q as [|[i row] q IH]; intros d; [reflexivity|]. cbn [fold_left flat_map fst snd]. fold (in_row row). rewrite fold_left_app, IH. f_equal.
  generalize (in_row row) as bs. intros bs; revert d. induction bs as [|b bs IHb]; intros d; [reflexivity|]. cbn [fold_left map fst snd]. apply IHb.
Qed.
Lemma NoDup_rev_map {A B} (f : A -> B) l : NoDup (map f l) -> NoDup (map f (rev l)).
Proof. intros N. rewrite map_rev. apply NoDup_rev, N. Qed.
Lemma rowOf_spec kb i row b : kbd_ok kb -> nth_error kb i = Some row -> In b (in_row row) -> rowOf kb (kb_name b) = Ok i.
Proof.
  intros Hk E I. rewrite rowOf_flat. unfold dgetM. rewrite dget_dict_of.
  set (fl := flat_map _ _).
  assert (N : map fst fl = map kb_name (keys kb)).
  { unfold fl, enumerate, keys. clear. generalize 0 as k. induction kb as [|r kb IH]; intros k; [reflexivity|]. cbn [List.length seq combine flat_map map fst snd].
    rewrite !map_app, IH, map_map. unfold in_row. rewrite map_app. reflexivity. }
  assert (In (kb_name b, i) fl).
  { unfold fl. apply in_flat_map. exists (i, row). split; [|apply in_map_iff; exists b; auto].
    unfold enumerate. clear - E. assert (G : forall k, In (k + i, row) (combine (seq k (List.length kb)) kb)).
    { revert i E. induction kb as [|r kb IH]; intros [|i] E k; try discriminate; cbn [List.length seq combine].
      - left. rewrite Nat.add_0_r. cbn in E. congruence.
      - right. replace (k + S i) with (S k + i) by lia. apply IH. exact E. }
    apply (G 0). }
  rewrite (proj2 (@dget_In_iff _ _ _ (rev fl) (kb_name b) i ltac:(unfold dict_wf, dkeys; apply NoDup_rev_map; rewrite N; exact Hk))); [reflexivity|apply in_rev; rewrite rev_involutive; assumption].
Qed.
Definition ask_used (ls : list layer) (row : list kbutton * list kbutton) : bool := match askButtons (layout_new ls) row with [] => false | _ => true end.
Lemma ask_used_spec ls row : ask_used ls row = true <-> exists b, In b (fst row ++ snd row) /\ ask_key ls b.
Proof.
  unfold ask_used. destruct (askButtons (layout_new ls) row) as [|b bs] eqn:E.
  - split; [discriminate|]. intros (b & H). apply askButtons_spec in H. rewrite E in H. destruct H.
  - split; [intros _|reflexivity]. exists b. apply askButtons_spec. rewrite E. left. reflexivity.
Qed.
Lemma askRow_spec nfc kb ls i row rs : kbd_ok kb -> nth_error kb i = Some row -> askRow nfc kb (layout_new ls) row = Ok rs ->
  if ask_used ls row && negb (Nat.eqb i (List.length kb - 1)) then exists r, rs = [r] /\ ask_row nfc ls row i r else rs = [].
Proof.
  intros Hk En. unfold askRow, ask_used. destruct (askButtons (layout_new ls) row) as [|b bs] eqn:E; cbn [andb]; [intros [= <-]; reflexivity|].
  assert (Ib : In b (in_row row)). { apply (@askButtons_spec ls row b). rewrite E. left. reflexivity. }
  rewrite (rowOf_spec i b Hk En Ib). cbn [bind]. destruct (Nat.eqb i (List.length kb - 1)); cbn [negb]; [intros [= <-]; reflexivity|].
  destruct (mapM (askKey nfc (layout_new ls)) (b :: bs)) as [ks|] eqn:Em; cbn [bind]; [|intros X; discriminate X]. intros [= <-]. eexists. split; [reflexivity|].
  exists (b :: bs). split; [discriminate|]. split; [intros b'; rewrite <- E; apply askButtons_spec|]. split; [eexists; symmetry; exact E|]. cbn [akeys atop abottom awidth].
  split; [|split; [reflexivity|split; [reflexivity|]]].
  - apply mapM_Ok_inv in Em. clear - Em. induction Em; constructor; auto. apply askKey_spec; assumption.
  - eexists. split; [reflexivity|]. apply percent_spec. cbn. lia.
Qed.
Definition ask_chosen (ls : list layer) (kb : kbd) : list (nat * (list kbutton * list kbutton)) :=
  filter (fun ir => ask_used ls (snd ir)) (enumerate (removelast kb)).
Lemma enum_from {A} (l : list A) k i x : In (i, x) (combine (seq k (List.length l)) l) <-> k <= i /\ nth_error l (i - k) = Some x.
Proof.
  revert k; induction l as [|a l IH]; intros k; cbn [List.length seq combine].
  - split; [intros []|]. intros [_ X]. destruct (i - k); discriminate.
  - cbn [In]. rewrite IH. split.
    + intros [X|[Hk X]]; [inversion X; subst; rewrite Nat.sub_diag; auto|]. split; [lia|]. replace (i - k) with (S (i - S k)) by lia. exact X.
    + intros [Hk X]. destruct (Nat.eq_dec i k) as [->|Ne]; [rewrite Nat.sub_diag in X; cbn in X; left; congruence|right]. split; [lia|].
      replace (i - k) with (S (i - S k)) in X by lia. exact X.
Qed.
Lemma enum_In {A} (l : list A) i x : In (i, x) (enumerate l) <-> nth_error l i = Some x.
Proof. unfold enumerate. rewrite enum_from, Nat.sub_0_r. split; [tauto|]. intros H. split; [lia|exact H]. Qed.
Lemma ask_rows_from nfc kb ls last q : kbd_ok kb -> forall k rs, (forall i row, nth_error (q ++ [last]) i = Some row -> nth_error kb (k + i) = Some row) ->
  k + List.length q = List.length kb - 1 -> mapM (askRow nfc kb (layout_new ls)) (q ++ [last]) = Ok rs ->
  Forall2 (fun ir r => ask_row nfc ls (snd ir) (fst ir) r) (filter (fun ir => ask_used ls (snd ir)) (combine (seq k (List.length q)) q)) (List.concat rs).
Proof.
  intros Hk. induction q as [|row q IH]; intros k rs Hn Hl E; cbn [app mapM] in E.
  - pose proof (Hn 0 last eq_refl) as H0. cbn [List.length] in Hl; rewrite Nat.add_0_r in *; rewrite ?Nat.add_0_r in Hl. destruct (askRow nfc kb (layout_new ls) last) as [r|] eqn:Er; cbn [bind] in E; [|discriminate].
    assert (rs = [r]) as -> by congruence. pose proof (@askRow_spec nfc kb ls k last r Hk H0 Er) as S.
    rewrite <- Hl, Nat.eqb_refl, Bool.andb_false_r in S. subst r. constructor.
  - pose proof (Hn 0 row eq_refl) as H0. rewrite Nat.add_0_r in H0. destruct (askRow nfc kb (layout_new ls) row) as [r|] eqn:Er; cbn [bind] in E; [|discriminate].
    destruct (mapM (askRow nfc kb (layout_new ls)) (q ++ [last])) as [rs'|] eqn:Em; cbn [bind] in E; [|discriminate]. assert (rs = r :: rs') as -> by congruence.
    assert (F : Forall2 (fun ir r => ask_row nfc ls (snd ir) (fst ir) r) (filter (fun ir => ask_used ls (snd ir)) (combine (seq (S k) (List.length q)) q)) (List.concat rs')).
    { apply IH; [intros i row' Hi; replace (S k + i) with (k + S i) by lia; apply Hn; exact Hi|cbn [List.length] in Hl; lia|reflexivity]. }
    pose proof (@askRow_spec nfc kb ls k row r Hk H0 Er) as S. cbn [List.length] in Hl. destruct (Nat.eqb_spec k (List.length kb - 1)) as [X|_]; [lia|].
    cbn [List.length seq combine filter snd]. rewrite Bool.andb_true_r in S. cbn [concat]. destruct (ask_used ls row).
    + destruct S as (r0 & -> & S). cbn [app]. constructor; [exact S|exact F].
    + subst r. exact F.
Qed.
Lemma ask_rows nfc kb ls rows : kbd_ok kb -> renderAsk nfc kb (layout_new ls) = Ok rows -> exists body,
  rows = body ++ [mkAR None false true [None; None; None]] /\ Forall2 (fun ir r => ask_row nfc ls (snd ir) (fst ir) r) (ask_chosen ls kb) body.
Proof.
  intros Hk. unfold renderAsk. destruct (mapM (askRow nfc kb (layout_new ls)) kb) as [rs|] eqn:E; cbn [bind]; [|discriminate]. intros [= <-].
  exists (List.concat rs). split; [reflexivity|]. unfold ask_chosen, enumerate. destruct kb as [|r0 kb0]; [cbn in E; assert (rs = []) as -> by congruence; constructor|].
  assert (S : r0 :: kb0 = removelast (r0 :: kb0) ++ [List.last (r0 :: kb0) r0]) by (apply app_removelast_last; discriminate).
  remember (r0 :: kb0) as kb eqn:Ekb. clear Ekb. eapply (@ask_rows_from nfc kb ls (List.last kb r0) (removelast kb) Hk 0 rs).
  - intros i row Hi. rewrite <- S in Hi. exact Hi.
  - rewrite S at 2. rewrite app_length. cbn. lia.
  - rewrite <- S. exact E.
Qed.
Lemma ask_success nfc kb ls : kbd_ok kb -> ((exists rows, renderAsk nfc kb (layout_new ls) = Ok rows) <->
  forall i row b, nth_error kb i = Some row -> S i < List.length kb -> In b (fst row ++ snd row) -> ask_key ls b -> ls <> [] /\ text_key ls (kb_name b)).
Proof.
  intros Hk. unfold renderAsk. split.
  - intros (rows & E) i row b En Hi Ib Ab. destruct (mapM (askRow nfc kb (layout_new ls)) kb) as [rs|] eqn:Em; cbn [bind] in E; [|discriminate].
    apply mapM_Ok_inv in Em. destruct (Forall2_nth _ Em En) as (r & _ & Hr). unfold askRow in Hr.
    assert (Ib' : In b (askButtons (layout_new ls) row)) by (apply askButtons_spec; auto).
    destruct (askButtons (layout_new ls) row) as [|b0 bs] eqn:Eb; [destruct Ib'|].
    assert (Ib0 : In b0 (in_row row)) by (apply (@askButtons_spec ls row b0); rewrite Eb; left; reflexivity).
    rewrite (rowOf_spec i b0 Hk En Ib0) in Hr. cbn [bind] in Hr. destruct (Nat.eqb_spec i (List.length kb - 1)); [lia|].
    destruct (mapM (askKey nfc (layout_new ls)) (b0 :: bs)) as [ks|] eqn:Ek; cbn [bind] in Hr; [|discriminate]. apply mapM_Ok_inv in Ek.
    apply In_nth_error in Ib'. destruct Ib' as [j Ej]. destruct (Forall2_nth _ Ek Ej) as (k & _ & Hkk). apply (askKey_Ok nfc). eauto.
  - intros H. enough (X : exists rs, mapM (askRow nfc kb (layout_new ls)) kb = Ok rs) by (destruct X as [rs ->]; cbn [bind]; eauto).
    apply mapM_all. intros row Ir. apply In_nth_error in Ir. destruct Ir as [i En]. unfold askRow.
    pose proof (@askButtons_spec ls row) as HB. destruct (askButtons (layout_new ls) row) as [|b0 bs] eqn:Eb; [eauto|].
    assert (Ib0 : In b0 (in_row row)) by (apply HB; left; reflexivity).
    rewrite (rowOf_spec i b0 Hk En Ib0). cbn [bind]. destruct (Nat.eqb_spec i (List.length kb - 1)) as [|Ne]; [eauto|].
    assert (Hi : S i < List.length kb) by (assert (i < List.length kb) by (apply nth_error_Some; congruence); lia).
    assert (X : exists ks, mapM (askKey nfc (layout_new ls)) (b0 :: bs) = Ok ks).
    { apply mapM_all. intros b Ib. apply askKey_Ok. apply HB in Ib. destruct Ib as [Ib Ab]. exact (H i row b En Hi Ib Ab). }
    destruct X as [ks ->]. cbn [bind]. eauto.
Qed.

(** * macOS *)
Lemma mkey_spec kb bt ct : kbd_ok kb -> (mkey kb bt = Ok ct <-> exists k, In k (keys kb) /\ kb_name k = fst bt /\ kb_macos k = Some (fst ct) /\ snd bt = CText (snd ct)).
Proof.
  intros Hk. unfold mkey. split.
  - destruct (button kb (fst bt)) as [k|] eqn:B; cbn [bind]; [|discriminate]. apply button_spec in B; [|exact Hk]. destruct (kb_macos k) as [c|] eqn:Ec; cbn [of_opt bind]; [|discriminate].
    destruct (snd bt) as [t|]; [|discriminate]. intros [= <-]. exists k. cbn [fst snd]. tauto.
  - intros (k & I & En & Em & Et). assert (B : button kb (fst bt) = Ok k) by (apply button_spec; auto). rewrite B. cbn [bind]. rewrite Em. cbn [of_opt bind]. rewrite Et. destruct ct; reflexivity.
Qed.
Lemma mac_maps kb ls m : renderKeylayout kb (layout_new ls) = Ok m ->
  mselect m = [(0, ""); (1, "anyShift caps?"); (2, "caps"); (3, "anyOption")] /\
  Forall2 (fun l ik => mapM (mkey kb) (llayout l) = Ok (snd ik)) ls (mmaps m) /\ map fst (mmaps m) = seq 0 (List.length ls).
Proof.
  unfold renderKeylayout. rewrite layout_new_layers. intros E. apply bind_inv in E. destruct E as (ms & E & [= <-]). cbn [mselect mmaps]. split; [reflexivity|].
  unfold enumerate in E. revert E. generalize 0 as k. revert ms. induction ls as [|l ls IH]; intros ms k E; cbn [List.length seq combine mapM] in E.
  - assert (ms = []) as -> by congruence. split; [constructor|reflexivity].
  - apply bind_inv in E. destruct E as (x & Ex & E). apply bind_inv in E. destruct E as (xs & Exs & [= <-]). cbn [fst snd] in Ex. apply bind_inv in Ex. destruct Ex as (ks & Ek & [= <-]).
    destruct (IH xs (S k) Exs) as [A B]. split; [constructor; [exact Ek|exact A]|]. cbn [map fst List.length seq]. f_equal. exact B.
Qed.
Lemma In_m_types m mods code t : In t (m_types m mods code) <-> exists i ks, In (i, mods) (mselect m) /\ In (i, ks) (mmaps m) /\ In (code, t) ks.
Proof.
  unfold m_types. rewrite in_flat_map. split.
  - intros ([i s] & I & H). cbn [fst snd] in H. destruct (String.eqb_spec s mods) as [->|]; [|destruct H]. apply in_flat_map in H. destruct H as ([j ks] & J & H). cbn [fst snd] in H.
    destruct (Nat.eqb_spec j i) as [->|]; [|destruct H]. apply in_map_iff in H. destruct H as ([c t'] & E & H). apply filter_In in H. cbn [fst snd] in *. destruct H as [H Ec]. apply N.eqb_eq in Ec. subst. exists i, ks. auto.
  - intros (i & ks & I & J & H). exists (i, mods). split; [exact I|]. cbn [fst snd]. rewrite String.eqb_refl. apply in_flat_map. exists (i, ks). split; [exact J|]. cbn [fst snd]. rewrite Nat.eqb_refl.
    apply in_map_iff. exists (code, t). split; [reflexivity|]. apply filter_In. split; [exact H|]. apply N.eqb_refl.
Qed.
Lemma mac_types kb ls m i mods l code t : kbd_ok kb -> renderKeylayout kb (layout_new ls) = Ok m ->
  nth_error [""; "anyShift caps?"; "caps"; "anyOption"] i = Some mods -> nth_error ls i = Some l ->
  (In t (m_types m mods code) <-> exists k, In k (keys kb) /\ kb_macos k = Some code /\ In (kb_name k, CText t) (llayout l)).
Proof.
  intros Hk E Ei El. apply mac_maps in E. destruct E as (Es & F & Ef). rewrite In_m_types, Es.
  assert (Sel : forall j, In (j, mods) [(0, ""); (1, "anyShift caps?"); (2, "caps"); (3, "anyOption")] <-> j = i).
  { intros j. do 4 (destruct i as [|i]; [cbn in Ei; assert (mods = _) as -> by (symmetry; injection Ei; intros X; exact X); cbn; intuition congruence|]). destruct i; discriminate. }
  destruct (Forall2_nth _ F El) as ([i' ks] & En & Em). cbn [snd] in Em.
  assert (i' = i) as ->.
  { assert (X : nth_error (map fst (mmaps m)) i = Some i') by (rewrite nth_error_map, En; reflexivity). rewrite Ef in X.
    assert (Hi : i < List.length ls) by (apply nth_error_Some; congruence).
    rewrite (nth_error_nth' _ 0) in X by (rewrite seq_length; exact Hi). rewrite seq_nth in X by exact Hi. cbn in X. congruence. }
  assert (Uni : forall ks', In (i, ks') (mmaps m) -> ks' = ks).
  { intros ks' I. assert (N : NoDup (map fst (mmaps m))) by (rewrite Ef; apply seq_NoDup). apply nth_error_In in En.
    pose proof (@NoDup_map_inj _ _ fst (mmaps m) (i, ks') (i, ks) N I En eq_refl) as X. congruence. }
  apply mapM_Ok_inv in Em.
  assert (P : forall ct, In ct ks <-> exists bt, In bt (llayout l) /\ mkey kb bt = Ok ct).
  { clear - Em. induction Em as [|bt ct bts cts H F IH]; intros ct'; [cbn; split; [tauto|intros (? & [] & _)]|]. cbn [In]. rewrite IH. split.
    - intros [<-|(b & I & X)]; [exists bt; auto|exists b; auto].
    - intros (b & [<-|I] & X); [left; congruence|right; eauto]. }
  split.
  - intros (j & ks' & Ij & Ik & I). apply Sel in Ij. subst j. apply Uni in Ik. subst ks'. apply P in I. destruct I as ([b c] & Ib & Hb). apply mkey_spec in Hb; [|exact Hk].
    destruct Hb as (k & Ikk & Ekn & Ekm & Ekt). cbn [fst snd] in *. subst. exists k. auto.
  - intros (k & Ik & Ekm & Ib). exists i, ks. split; [apply Sel; reflexivity|]. split; [exact (nth_error_In _ _ En)|]. apply P. exists (kb_name k, CText t). split; [exact Ib|].
    apply mkey_spec; [exact Hk|]. exists k. auto.
Qed.
Lemma mac_success kb ls : kbd_ok kb -> ((exists m, renderKeylayout kb (layout_new ls) = Ok m) <->
  forall l b c, In l ls -> In (b, c) (llayout l) -> c <> COther /\ exists k, In k (keys kb) /\ kb_name k = b /\ kb_macos k <> None).
Proof.
  intros Hk. split.
  - intros (m & E) l b c Il I. apply mac_maps in E. destruct E as (_ & F & _). apply In_nth_error in Il. destruct Il as [i El].
    destruct (Forall2_nth _ F El) as (ik & _ & Em). apply mapM_Ok_inv in Em. apply In_nth_error in I. destruct I as [j Ej]. destruct (Forall2_nth _ Em Ej) as (ct & _ & H).
    apply mkey_spec in H; [|exact Hk]. destruct H as (k & Ik & En & Ec & Et). cbn [fst snd] in *. split; [congruence|]. exists k. split; [exact Ik|]. split; [exact En|congruence].
  - intros H. unfold renderKeylayout. rewrite layout_new_layers.
    enough (X : exists ms, mapM (fun il => do ks <- mapM (mkey kb) (llayout (snd il)); Ok (fst il, ks)) (enumerate ls) = Ok ms) by (destruct X as [ms ->]; cbn [bind]; eauto).
    apply mapM_all. intros [i l] I. apply enum_In in I. apply nth_error_In in I. cbn [fst snd].
    assert (Y : exists ks, mapM (mkey kb) (llayout l) = Ok ks).
    { apply mapM_all. intros [b c] Ib. destruct (H l b c I Ib) as (Hc & k & Ik & En & Em). destruct c as [t|]; [|congruence]. destruct (kb_macos k) as [n|] eqn:Ek; [|congruence].
      exists (n, t). apply mkey_spec; [exact Hk|]. exists k. auto. }
    destruct Y as [ks ->]. cbn [bind]. eauto.
Qed.

(** * Klavaro *)
Lemma all_shown_nth nfc ls b ts i t : all_shown nfc ls b ts -> nth_error ts i = Some t -> exists l, nth_error ls i = Some l /\ shown nfc (dget (llayout l) b) = Some t.
Proof.
  intros E Et. assert (X : nth_error (map Some ts) i = Some (Some t)) by (rewrite nth_error_map, Et; reflexivity). rewrite <- E, nth_error_map in X.
  destruct (nth_error ls i) as [l|]; [|discriminate]. exists l. split; [reflexivity|]. cbn in X. congruence.
Qed.
Lemma klavaroKey_spec nfc ls b tt : klavaroKey nfc (layout_new ls) b = Ok tt -> klavaro_text nfc ls 0 b (fst tt) /\ klavaro_text nfc ls 1 b (snd tt).
Proof.
  unfold klavaroKey. intros E. apply bind_inv in E. destruct E as (ts & Et & E). apply buttonText_spec in Et. apply bind_inv in E. destruct E as (t0 & E0 & E). apply bind_inv in E. destruct E as (t1 & E1 & [= <-]).
  destruct (nth_error ts 0) as [u0|] eqn:N0; cbn [of_opt] in E0; [|discriminate]. destruct (nth_error ts 1) as [u1|] eqn:N1; cbn [of_opt] in E1; [|discriminate].
  assert (u0 = t0) as -> by congruence. assert (u1 = t1) as -> by congruence. cbn [fst snd].
  destruct (@all_shown_nth nfc ls _ _ _ _ Et N0) as (l0 & H0 & S0). destruct (@all_shown_nth nfc ls _ _ _ _ Et N1) as (l1 & H1 & S1). split; [exists l0, t0|exists l1, t1]; auto.
Qed.
Lemma klavaroKey_Ok nfc ls b : (exists tt, klavaroKey nfc (layout_new ls) b = Ok tt) <-> 2 <= List.length ls /\ text_key ls (kb_name b).
Proof.
  unfold klavaroKey. rewrite <- (buttonText_Ok nfc). split.
  - intros (tt & E). apply bind_inv in E. destruct E as (ts & Et & E). split; [|eauto]. apply buttonText_spec, all_shown_length in Et. rewrite <- Et. destruct ts as [|t0 [|t1 ts]]; [discriminate|discriminate|cbn; lia].
  - intros (H & ts & E). rewrite E. cbn [bind]. apply buttonText_spec, all_shown_length in E. destruct ts as [|t0 [|t1 ts]]; [cbn in E; lia|cbn in E; lia|cbn; eauto].
Qed.
Lemma klavaro_rows nfc ls rows : forall st st', foldM (klavaroRow nfc (layout_new ls)) rows st = Ok st' -> exists low up,
  Forall2 (klavaro_line nfc ls 0) (letter_rows rows) low /\ Forall2 (klavaro_line nfc ls 1) (letter_rows rows) up /\
  fst st' = fst st ++ List.concat (map (fun w => w ++ [10%N]) low) /\ snd st' = snd st ++ List.concat (map (fun w => w ++ [10%N]) up).
Proof.
  induction rows as [|row rows IH]; intros st st' E; cbn [foldM] in E.
  - assert (st' = st) as -> by congruence. exists [], []. cbn. rewrite !app_nil_r. split; [constructor|]. split; [constructor|]. auto.
  - apply bind_inv in E. destruct E as (st1 & E1 & E). destruct (IH _ _ E) as (low & up & F0 & F1 & A & B). unfold klavaroRow in E1. fold (letters row) in E1.
    change (filter isLetter (fst row ++ snd row)) with (letters row) in E1. unfold letter_rows. cbn [map filter]. fold (letter_rows rows).
    destruct (letters row) as [|b bs]; [assert (st1 = st) as -> by congruence; exists low, up; auto|].
    apply bind_inv in E1. destruct E1 as (ks & Ek & [= <-]). cbn [fst snd] in A, B. apply mapM_Ok_inv in Ek.
    exists (List.concat (map fst ks) :: low), (List.concat (map snd ks) :: up). cbn [map concat].
    split; [constructor; [|exact F0]|split; [constructor; [|exact F1]|]].
    + exists (map fst ks). split; [|reflexivity]. clear - Ek. induction Ek; constructor; auto. apply klavaroKey_spec; assumption.
    + exists (map snd ks). split; [|reflexivity]. clear - Ek. induction Ek; constructor; auto. apply klavaroKey_spec; assumption.
    + rewrite A, B, <- !app_assoc. auto.
Qed.
Lemma lstrip_id t : (forall c r, t = c :: r -> c <> 10%N) -> lstrip t = t.
Proof.
  destruct t as [|c r]; [reflexivity|]. intros H. specialize (H c r eq_refl). cbn [lstrip].
  repeat match goal with |- match ?p with _ => _ end = _ => destruct p; try reflexivity; try congruence end.
Qed.
(** lines that are neither empty nor contain newlines *)
Definition plain_line (w : text) : Prop := w <> [] /\ ~ In 10%N w.
Definition joined (ws : list text) : text := List.concat (map (fun w => w ++ [10%N]) ws).
Lemma joined_end ws : ws <> [] -> joined ws = joined (removelast ws) ++ List.last ws [] ++ [10%N].
Proof.
  intros N. unfold joined. rewrite (app_removelast_last [] N) at 1. rewrite map_app, concat_app. cbn [map concat]. rewrite app_nil_r. reflexivity.
Qed.
Lemma strip_joined ws : ws <> [] -> Forall plain_line ws -> strip (joined ws) ++ [10%N] = joined ws.
Proof.
  intros N F. unfold strip. rewrite (lstrip_id (t := joined ws)).
  - rewrite (joined_end N). set (c := List.last ws []). set (t := joined (removelast ws)). rewrite !rev_app_distr. cbn [rev app]. cbn [lstrip].
    assert (Pc : plain_line c). { rewrite Forall_forall in F. apply F. rewrite (app_removelast_last [] N). apply in_app_iff. right. left. reflexivity. }
    rewrite lstrip_id.
    + rewrite rev_app_distr, !rev_involutive, <- app_assoc. reflexivity.
    + intros d r X ->. destruct (rev c) as [|d' r'] eqn:Ec; [apply (f_equal (@rev _)) in Ec; rewrite rev_involutive in Ec; destruct Pc as [Pc _]; contradiction|].
      cbn [app] in X. assert (d' = 10%N) as -> by congruence. destruct Pc as [_ Pc]. apply Pc. apply in_rev. rewrite Ec. left. reflexivity.
  - intros c r X ->. destruct ws as [|w ws]; [congruence|]. inversion F as [|? ? [Pw Pn] _]; subst. unfold joined in X. cbn [map concat] in X. destruct w as [|d w]; [congruence|].
    cbn [app] in X. assert (d = 10%N) as -> by congruence. apply Pn. left. reflexivity.
Qed.
Lemma lines_joined ws t : Forall (fun w => ~ In 10%N w) ws -> lines_of (joined ws ++ t) = ws ++ lines_of t.
Proof.
  induction 1 as [|w ws H F IH]; [reflexivity|]. unfold joined in *. cbn [map concat]. rewrite <- !app_assoc. cbn [app].
  clear F. induction w as [|c w IHw]; cbn [app lines_of].
  - cbn. rewrite IH. reflexivity.
  - destruct (N.eqb_spec c 10) as [->|_]; [exfalso; apply H; left; reflexivity|]. rewrite IHw by (intros X; apply H; right; exact X). reflexivity.
Qed.
Lemma klavaro_plain nfc ls i bs w : klavaro_line nfc ls i bs w -> bs <> [] ->
  (forall b l t, In b bs -> nth_error ls i = Some l -> shown nfc (dget (llayout l) (kb_name b)) = Some t -> ~ In 10%N t) -> plain_line w.
Proof.
  intros (ts & F & ->) N H.
  assert (P : forall t, In t ts -> plain_line t).
  { intros t It. clear N. induction F as [|b u bs us Hb F IH]; [destruct It|]. destruct It as [->|It].
    - destruct Hb as (l & s & El & Es & ->). specialize (H b l s (or_introl eq_refl) El Es). destruct s; [split; [discriminate|cbn; intuition congruence]|split; [discriminate|exact H]].
    - apply IH; [intros; eapply H; eauto; right; assumption|exact It]. }
  split.
  - destruct F as [|b u bs us Hb F]; [congruence|]. cbn [concat]. destruct (P u (or_introl eq_refl)) as [Pu _]. destruct u; [congruence|discriminate].
  - intros I. apply in_concat in I. destruct I as (t & It & I). destruct (P t It) as [_ Q]. exact (Q I).
Qed.
Lemma klavaro_lines nfc kb ls t : renderKlavaro nfc kb (layout_new ls) = Ok t -> letter_rows kb <> [] ->
  (forall b i l s, In b (List.concat (letter_rows kb)) -> i < 2 -> nth_error ls i = Some l -> shown nfc (dget (llayout l) (kb_name b)) = Some s -> ~ In 10%N s) ->
  exists low up, lines_of t = low ++ up ++ [[]] /\ Forall2 (klavaro_line nfc ls 0) (letter_rows kb) low /\ Forall2 (klavaro_line nfc ls 1) (letter_rows kb) up.
Proof.
  unfold renderKlavaro. intros E N H. apply bind_inv in E. destruct E as (st & E & [= <-]). destruct (@klavaro_rows nfc ls kb _ _ E) as (low & up & F0 & F1 & A & B). cbn [fst snd app] in A, B.
  fold (joined low) in A. fold (joined up) in B. exists low, up. split; [|auto].
  assert (NE : forall bs, In bs (letter_rows kb) -> bs <> []). { intros bs I. unfold letter_rows in I. apply filter_In in I. destruct I as [_ I]. destruct bs; congruence. }
  assert (P : forall i ws, i < 2 -> Forall2 (klavaro_line nfc ls i) (letter_rows kb) ws -> Forall plain_line ws /\ ws <> []).
  { intros i ws Hi F. split.
    - revert H NE. clear - F Hi. intros H NE. induction F as [|bs w bss ws Hb F IH]; constructor.
      + eapply klavaro_plain; [exact Hb|apply NE; left; reflexivity|]. intros b l s Ib El Es. apply (H b i l s); [cbn [concat]; apply in_app_iff; left; exact Ib|exact Hi|exact El|exact Es].
      + apply IH; [|intros; apply NE; right; assumption]. intros b j l s Ib. apply H. cbn [concat]. apply in_app_iff. right. exact Ib.
    - destruct F; [congruence|discriminate]. }
  destruct (P 0 low ltac:(lia) F0) as [P0 N0]. destruct (P 1 up ltac:(lia) F1) as [P1 N1]. rewrite A, B.
  assert (X : strip (joined low) ++ [10%N] ++ strip (joined up) ++ [10%N] = joined low ++ joined up).
  { rewrite <- (strip_joined N0 P0) at 2. rewrite (strip_joined N1 P1). rewrite <- app_assoc. reflexivity. }
  match goal with |- lines_of ?u = _ => change u with (strip (joined low) ++ [10%N] ++ strip (joined up) ++ [10%N]) end. rewrite X. clear X.
  rewrite lines_joined by (eapply Forall_impl; [|exact P0]; intros w [_ X]; exact X). f_equal. rewrite <- (app_nil_r (joined up)).
  rewrite lines_joined by (eapply Forall_impl; [|exact P1]; intros w [_ X]; exact X). reflexivity.
Qed.
Lemma klavaro_success nfc kb ls : (exists t, renderKlavaro nfc kb (layout_new ls) = Ok t) <->
  forall b, In b (List.concat (letter_rows kb)) -> 2 <= List.length ls /\ text_key ls (kb_name b).
Proof.
  unfold renderKlavaro.
  assert (G : forall rows st, (exists st', foldM (klavaroRow nfc (layout_new ls)) rows st = Ok st') <-> forall b, In b (List.concat (letter_rows rows)) -> 2 <= List.length ls /\ text_key ls (kb_name b)).
  { induction rows as [|row rows IH]; intros st; cbn [foldM]; [split; [intros _ b []|eauto]|].
    unfold letter_rows. cbn [map filter]. fold (letter_rows rows). unfold klavaroRow at 1. change (filter isLetter (fst row ++ snd row)) with (letters row).
    destruct (letters row) as [|b0 bs]; [cbn [bind]; apply IH|]. cbn [concat]. split.
    - intros (st' & E) b Ib. apply bind_inv in E. destruct E as (st1 & E1 & E). apply bind_inv in E1. destruct E1 as (ks & Ek & _). apply in_app_iff in Ib. destruct Ib as [Ib|Ib].
      + apply mapM_Ok_inv in Ek. apply In_nth_error in Ib. destruct Ib as [j Ej]. destruct (Forall2_nth _ Ek Ej) as (tt & _ & Ht). apply (klavaroKey_Ok nfc). eauto.
      + apply (proj1 (IH st1)); eauto.
    - intros H. destruct (mapM_all (klavaroKey nfc (layout_new ls)) (b0 :: bs)) as [ks Ek].
      { intros b Ib. apply klavaroKey_Ok, H, in_app_iff. left. exact Ib. }
      rewrite Ek. cbn [bind]. apply IH. intros b Ib. apply H, in_app_iff. right. exact Ib. }
  rewrite <- (G kb ([], [])). split.
  - intros (t & E). apply bind_inv in E. destruct E as (st & E & _). eauto.
  - intros (st & E). rewrite E. cbn [bind]. eauto.
Qed.
Lemma klavaro_columns nfc ls i bs line : klavaro_line nfc ls i bs line ->
  (forall b l s, In b bs -> nth_error ls i = Some l -> shown nfc (dget (llayout l) (kb_name b)) = Some s -> List.length s <= 1) -> List.length line = List.length bs.
Proof.
  intros (ts & F & ->) H. induction F as [|b t bs ts Hb F IH]; [reflexivity|]. cbn [concat List.length]. rewrite app_length, IH by (intros; eapply H; eauto; right; assumption).
  destruct Hb as (l & s & El & Es & ->). specialize (H b l s (or_introl eq_refl) El Es). destruct s as [|c [|c' s]]; cbn in *; lia.
Qed.
Lemma x_columns_spec kb ls lines b : kbd_ok kb -> renderXmodmap kb (layout_new ls) = Ok lines -> taken_x kb b -> ~ is_modifier ls (kb_name b) ->
  (forall y, In y (keys kb) -> is_modifier ls (kb_name y) -> kb_xorg y <> kb_xorg b) ->
  exists ss, effective lines (kb_xorg b) = Some ss /\ List.length ss = 8 /\
    forall c i, nth_error [Some 0; Some 1; Some 2; Some 4; Some 3; None; Some 5; Some 6] c = Some (Some i) ->
      option_map keysym_char (nth_error ss c) = Some (match nth_error ls i with Some l => one_char (dget (llayout l) (kb_name b)) | None => None end).
Proof.
  intros Hk E T N M. destruct (text_line Hk E T N M) as (ss & Ess & Ef). exists ss. split; [exact Ef|]. apply mapM_Ok_inv in Ess.
  assert (X : forall {A B} (R : A -> B -> Prop) l l', Forall2 R l l' -> List.length l' = List.length l) by (clear; induction 1; cbn; congruence).
  split; [rewrite (X _ _ _ _ _ Ess); reflexivity|]. intros c i Ec.
  assert (Ec' : nth_error xorder c = Some i).
  { do 8 (destruct c as [|c]; [cbn [nth_error] in Ec; first [discriminate Ec|cbn [nth_error xorder]; congruence]|]). destruct c; discriminate. }
  destruct (Forall2_nth _ Ess Ec') as (s & -> & Hs). cbn [option_map]. f_equal. unfold colsym in Hs. rewrite layout_new_layers in Hs. destruct (nth_error ls i) as [l|].
  - apply keysym_spec in Hs. apply Hs.
  - assert (s = "NoSymbol") as -> by congruence. reflexivity.
Qed.
Lemma x_once kb ls lines : kbd_ok kb -> renderXmodmap kb (layout_new ls) = Ok lines ->
  (forall y, In y (keys kb) -> is_modifier ls (kb_name y) -> taken_x kb y) -> NoDup (map xcode lines).
Proof.
  intros Hk E Ht. destruct (@render_parts kb ls lines Hk E) as (d0 & d & W & F & _ & B & (new & Kd & Hn) & _).
  assert (T : forall x k, In x (dkeys d) -> button kb x = Ok k -> In k (taken_keys kb)).
  { intros x k Ix Bx. apply button_spec in Bx; [|exact Hk]. destruct Bx as [Ik <-]. rewrite Kd in Ix. apply in_app_iff in Ix. destruct Ix as [Ix|Ix].
    - apply B, in_map_iff in Ix. destruct Ix as (u & Eu & Iu). assert (u = k) as -> by (apply (@name_inj kb); auto using taken_incl). exact Iu.
    - apply taken_In, Ht; auto. }
  unfold dict_wf, dkeys in W. clear - F W T Hk. induction F as [|[x v] l d lines (k & Bk & ->) F IH]; cbn [map]; [constructor|]. cbn [map fst] in W. inversion W as [|? ? Nx Wd]; subst. constructor.
  - cbn [xcode]. intros I. apply in_map_iff in I. destruct I as (l' & El & Il). assert (X : exists y w ky, In (y, w) d /\ button kb y = Ok ky /\ xcode l' = kb_xorg ky).
    { clear - F Il. induction F as [|[y w] l d lines (ky & By & ->) F IH]; [destruct Il|]. destruct Il as [<-|Il]; [exists y, w, ky; cbn; auto|]. destruct (IH Il) as (y' & w' & k' & I & H). exists y', w', k'. split; [right; exact I|exact H]. }
    destruct X as (y & w & ky & Iy & By & Ey). cbn [fst] in *.
    assert (Iy' : In y (map fst d)) by (apply in_map with (f := fst) in Iy; exact Iy).
    assert (ky = k).
    { eapply NoDup_map_inj; [apply taken_codes|apply (T y); [right; exact Iy'|exact By]|apply (T x); [left; reflexivity|exact Bk]|congruence]. }
    subst ky. apply button_spec in Bk, By; [|exact Hk|exact Hk]. apply Nx. destruct Bk as [_ <-], By as [_ ->]. exact Iy'.
  - apply IH; [exact Wd|]. intros x' k' I. apply T. right. exact I.
Qed.
Lemma ask_rows_order nfc kb ls rows : kbd_ok kb -> renderAsk nfc kb (layout_new ls) = Ok rows ->
  exists body chosen, rows = body ++ [mkAR None false true [None; None; None]] /\
    (forall i row, In (i, row) chosen <-> nth_error (removelast kb) i = Some row /\ exists b, In b (fst row ++ snd row) /\ ask_key ls b) /\
    (forall n m ir jr, n < m -> nth_error chosen n = Some ir -> nth_error chosen m = Some jr -> fst ir < fst jr) /\
    Forall2 (fun ir r => ask_row nfc ls (snd ir) (fst ir) r) chosen body.
Proof.
  intros Hk E. destruct (@ask_rows nfc kb ls rows Hk E) as (body & -> & F). exists body, (ask_chosen ls kb). split; [reflexivity|]. split; [|split; [|exact F]].
  - intros i row. unfold ask_chosen. rewrite filter_In, enum_In, ask_used_spec. reflexivity.
  - unfold ask_chosen, enumerate. generalize (removelast kb) as q. generalize 0 as k. intros k q.
    assert (G : forall q k, (forall ir, In ir (filter (fun ir => ask_used ls (snd ir)) (combine (seq k (List.length q)) q)) -> k <= fst ir) /\
      forall n m ir jr, n < m -> nth_error (filter (fun ir => ask_used ls (snd ir)) (combine (seq k (List.length q)) q)) n = Some ir ->
        nth_error (filter (fun ir => ask_used ls (snd ir)) (combine (seq k (List.length q)) q)) m = Some jr -> fst ir < fst jr).
    { clear. induction q as [|r q IH]; intros k; [split; [intros ir []|intros [|n] m ir jr _ X; discriminate]|]. cbn [List.length seq combine filter snd]. destruct (IH (S k)) as [A B].
      destruct (ask_used ls r).
      - split; [intros ir [<-|I]; [cbn; lia|apply A in I; lia]|]. intros [|n] [|m] ir jr H X Y; [lia| |lia|]; cbn [nth_error] in X, Y.
        + apply nth_error_In, A in Y. assert (ir = (k, r)) as -> by congruence. cbn. lia.
        + apply (B n m); [lia|exact X|exact Y].
      - split; [intros ir I; apply A in I; lia|exact B]. }
    apply (G q k).
Qed.
