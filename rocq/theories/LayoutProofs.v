From Verif Require Import Base LayoutModel LayoutSpec.
Set Implicit Arguments.

Lemma fold_left_ext {A B} (f g : A -> B -> A) l a : (forall a b, f a b = g a b) -> fold_left f l a = fold_left g l a.
Proof. intros E. revert a; induction l as [|x l IH]; intros a; cbn; [reflexivity|]. rewrite E; apply IH. Qed.

(** * The trie built by the constructor *)
Lemma tappend_get t v c k : dget t v <> None ->
  dget (tappend t v c) k = if eqb k v then option_map (fun cs => cs ++ [c]) (dget t v) else dget t k.
Proof.
  unfold tappend. destruct (dget t v) as [cs|] eqn:E; [|congruence]. intros _. rewrite dget_dset.
  reflexivity.
Qed.
Lemma setdefault_get t v k : dget (setdefault t v) k =
  if eqb k v then Some (match dget t v with Some cs => cs | None => [] end) else dget t k.
Proof.
  unfold setdefault. destruct (dget t v) as [cs|] eqn:E.
  - destruct (eqb_spec k v) as [->|]; auto.
  - rewrite dget_dset. reflexivity.
Qed.
Lemma tappend_fold_get b v mods t k cs : dget t v = Some cs ->
  dget (fold_left (fun t m => tappend t v (mkComb m b)) mods t) k =
  if eqb k v then Some (cs ++ map (fun m => mkComb m b) mods) else dget t k.
Proof.
  revert t cs; induction mods as [|m mods IH]; intros t cs E; cbn [fold_left map].
  - rewrite app_nil_r. destruct (eqb_spec k v) as [->|]; auto.
  - assert (dget (tappend t v (mkComb m b)) v = Some (cs ++ [mkComb m b])) as E1.
    { rewrite tappend_get by congruence. rewrite eqb_refl, E. reflexivity. }
    rewrite (IH _ _ E1). destruct (eqb_spec k v) as [Ek|Hn].
    + rewrite <- app_assoc. reflexivity.
    + rewrite tappend_get by congruence. destruct (eqb_spec k v); [contradiction|reflexivity].
Qed.

Definition cell_ways mods t (bv : string * cell) : list comb :=
  match snd bv with
  | CText t' => if eqb t t' then map (fun m => mkComb m (frozenset [fst bv])) mods else []
  | COther => []
  end.
Definition has_text (t : text) (bv : string * cell) : bool :=
  match snd bv with CText t' => eqb t t' | COther => false end.

Definition opt_ways (o : option (list comb)) := match o with Some cs => cs | None => [] end.

Lemma add_cell_get mods st bv k :
  dget (fst (add_cell mods st bv)) k =
  if has_text k bv then Some (opt_ways (dget (fst st) k) ++ cell_ways mods k bv) else dget (fst st) k.
Proof.
  unfold add_cell, has_text, cell_ways. destruct bv as [b [v|]]; cbn [fst snd]; [|reflexivity].
  erewrite tappend_fold_get by (rewrite setdefault_get, eqb_refl; reflexivity).
  destruct (eqb_spec k v) as [->|Hn]; [reflexivity|].
  rewrite setdefault_get. destruct (eqb_spec k v); [contradiction|reflexivity].
Qed.
Lemma cell_ways_no mods k bv : has_text k bv = false -> cell_ways mods k bv = [].
Proof. unfold has_text, cell_ways. destruct (snd bv); [intros ->|]; reflexivity. Qed.

Lemma add_cells_get mods cells st k :
  dget (fst (fold_left (add_cell mods) cells st)) k =
  if existsb (has_text k) cells then Some (opt_ways (dget (fst st) k) ++ flat_map (cell_ways mods k) cells)
  else dget (fst st) k.
Proof.
  revert st; induction cells as [|bv cells IH]; intros st; cbn [fold_left existsb flat_map]; [reflexivity|].
  rewrite IH, add_cell_get. destruct (has_text k bv) eqn:E; cbn [orb].
  - destruct (existsb (has_text k) cells) eqn:E2; cbn [opt_ways]; [rewrite app_assoc; reflexivity|].
    f_equal. rewrite <- (app_nil_r (cell_ways mods k bv)) at 1. f_equal. f_equal.
    clear - E2. induction cells as [|c cells IH]; cbn in *; [reflexivity|].
    apply orb_false_iff in E2 as [E1 E2]. rewrite (cell_ways_no _ _ _ E1), <- IH; auto.
  - rewrite (cell_ways_no _ _ _ E). cbn [app]. reflexivity.
Qed.

Lemma add_cells_buf mods cells st :
  snd (fold_left (add_cell mods) cells st) =
  fold_left (fun n bv => match snd bv with CText v => Nat.max (length v) n | COther => n end) cells (snd st).
Proof.
  revert st; induction cells as [|bv cells IH]; intros st; cbn [fold_left]; [reflexivity|].
  rewrite IH. f_equal. unfold add_cell. destruct bv as [b [v|]]; reflexivity.
Qed.

Definition layer_has (t : text) (l : layer) : bool := existsb (has_text t) (llayout l).
Definition layer_ways (t : text) (l : layer) : list comb := flat_map (cell_ways (lmods l) t) (llayout l).

Lemma layer_ways_no k l : layer_has k l = false -> layer_ways k l = [].
Proof.
  unfold layer_has, layer_ways. induction (llayout l) as [|c cells IH]; cbn; [reflexivity|].
  intros E. apply orb_false_iff in E as [E1 E2]. rewrite (cell_ways_no _ _ _ E1), IH; auto.
Qed.

Definition st_m2l (st : list (bset * (nat * layer)) * list (text * list comb) * nat) := fst (fst st).
Definition st_trie (st : list (bset * (nat * layer)) * list (text * list comb) * nat) := snd (fst st).
Definition st_buf (st : list (bset * (nat * layer)) * list (text * list comb) * nat) := snd st.

Lemma add_layer_get st il k :
  dget (st_trie (add_layer st il)) k =
  if layer_has k (snd il) then Some (opt_ways (dget (st_trie st) k) ++ layer_ways k (snd il)) else dget (st_trie st) k.
Proof.
  destruct st as [[m2l t] bl], il as [i l]; unfold add_layer, st_trie; cbn [fst snd].
  pose proof (add_cells_get (lmods l) (llayout l) (t, bl) k) as E.
  destruct (fold_left (add_cell (lmods l)) (llayout l) (t, bl)) as [t' bl']. exact E.
Qed.
Lemma add_layers_get ils st k :
  dget (st_trie (fold_left add_layer ils st)) k =
  if existsb (fun il => layer_has k (snd il)) ils
  then Some (opt_ways (dget (st_trie st) k) ++ flat_map (fun il => layer_ways k (snd il)) ils)
  else dget (st_trie st) k.
Proof.
  revert st; induction ils as [|il ils IH]; intros st; cbn [fold_left existsb flat_map]; [reflexivity|].
  rewrite IH, add_layer_get. destruct (layer_has k (snd il)) eqn:E; cbn [orb].
  - destruct (existsb _ ils) eqn:E2; cbn [opt_ways]; [rewrite app_assoc; reflexivity|].
    f_equal. rewrite <- (app_nil_r (layer_ways k (snd il))) at 1. f_equal. f_equal.
    clear - E2. induction ils as [|c ils IH]; cbn in *; [reflexivity|].
    apply orb_false_iff in E2 as [E1 E2]. rewrite (layer_ways_no _ _ E1), <- IH; auto.
  - rewrite (layer_ways_no _ _ E). reflexivity.
Qed.

Lemma enumerate_snd {A} (l : list A) : map snd (enumerate l) = l.
Proof.
  unfold enumerate. generalize 0. induction l as [|x l IH]; intros n; cbn; [reflexivity|]. f_equal. apply IH.
Qed.
Lemma flat_map_map {A B C} (f : A -> B) (g : B -> list C) l : flat_map g (map f l) = flat_map (fun x => g (f x)) l.
Proof. induction l; cbn; [reflexivity|]. f_equal; assumption. Qed.
Lemma existsb_map {A B} (f : A -> B) (g : B -> bool) l : existsb g (map f l) = existsb (fun x => g (f x)) l.
Proof. induction l; cbn; [reflexivity|]. f_equal; assumption. Qed.

Lemma layout_new_trie ls : trie (layout_new ls) = st_trie (fold_left add_layer (enumerate ls) ([], [], 0)).
Proof. unfold layout_new. destruct (fold_left _ _ _) as [[a b] c]. reflexivity. Qed.
Lemma layout_new_m2l ls : modToLayer (layout_new ls) = st_m2l (fold_left add_layer (enumerate ls) ([], [], 0)).
Proof. unfold layout_new. destruct (fold_left _ _ _) as [[a b] c]. reflexivity. Qed.
Lemma layout_new_buf ls : bufferLen (layout_new ls) = st_buf (fold_left add_layer (enumerate ls) ([], [], 0)).
Proof. unfold layout_new. destruct (fold_left _ _ _) as [[a b] c]. reflexivity. Qed.
Lemma layout_new_layers ls : layers (layout_new ls) = ls.
Proof. unfold layout_new. destruct (fold_left _ _ _) as [[a b] c]. reflexivity. Qed.

Lemma ways_layers ls t : ways ls t = flat_map (layer_ways t) ls.
Proof. reflexivity. Qed.

Theorem trie_get ls t : dget (trie (layout_new ls)) t =
  if existsb (layer_has t) ls then Some (ways ls t) else None.
Proof.
  rewrite layout_new_trie, add_layers_get. cbn.
  replace (existsb (fun il : nat * layer => layer_has t (snd il)) (enumerate ls)) with (existsb (layer_has t) ls).
  - rewrite ways_layers. pose proof (flat_map_map snd (layer_ways t) (enumerate ls)) as F.
    rewrite enumerate_snd in F. rewrite F. reflexivity.
  - pose proof (existsb_map snd (layer_has t) (enumerate ls)) as F. rewrite enumerate_snd in F. exact F.
Qed.

Lemma layer_has_spec t l : layer_has t l = true <-> exists b, In (b, CText t) (llayout l).
Proof.
  unfold layer_has. rewrite existsb_exists. split.
  - intros ([b [v|]] & Hi & E); cbn in E; [|discriminate].
    change (eqb t v = true) in E. apply eqb_eq in E as ->. eauto.
  - intros (b & Hi). exists (b, CText t). split; [exact Hi|]. apply (eqb_refl t).
Qed.
Lemma assigned_spec ls t : existsb (layer_has t) ls = true <-> assigned ls t.
Proof.
  rewrite existsb_exists. unfold assigned, assigned_at. split.
  - intros (l & Hl & E). apply layer_has_spec in E as [b Hb]. eauto.
  - intros (b & l & Hl & Hb). exists l. split; [exact Hl|]. apply layer_has_spec. eauto.
Qed.

Lemma trie_get_Some ls t cs : dget (trie (layout_new ls)) t = Some cs <-> assigned ls t /\ cs = ways ls t.
Proof.
  rewrite trie_get, <- assigned_spec. destruct (existsb (layer_has t) ls); split.
  - intros E; inversion E; auto.
  - intros [_ ->]; reflexivity.
  - discriminate.
  - intros [E _]; discriminate.
Qed.
Lemma trie_get_None ls t : dget (trie (layout_new ls)) t = None <-> ~ assigned ls t.
Proof. rewrite trie_get, <- assigned_spec. destruct (existsb (layer_has t) ls); split; congruence. Qed.

(** * Longest prefix *)
Lemma longest_prefix_spec t n buf :
  match longest_prefix t n buf with
  | Some (p, cs) => exists k, k <= n /\ p = firstn k buf /\ dget t p = Some cs /\
                     forall k', k < k' <= n -> dget t (firstn k' buf) = None
  | None => forall k, k <= n -> dget t (firstn k buf) = None
  end.
Proof.
  induction n as [|n IH]; cbn [longest_prefix].
  - destruct (dget t (firstn 0 buf)) as [cs|] eqn:E.
    + exists 0. split; [lia|]. split; [reflexivity|]. split; [exact E|]. intros k' Hk; lia.
    + intros k Hk. replace k with 0 by lia. exact E.
  - destruct (dget t (firstn (S n) buf)) as [cs|] eqn:E.
    + exists (S n). split; [lia|]. split; [reflexivity|]. split; [exact E|]. intros k' Hk; lia.
    + destruct (longest_prefix t n buf) as [[p cs]|].
      * destruct IH as (k & Hk & -> & Hp & Hmax). exists k. split; [lia|]. split; [reflexivity|]. split; [exact Hp|].
        intros k' Hk'. destruct (Nat.eq_dec k' (S n)) as [->|]; [exact E|]. apply Hmax; lia.
      * intros k Hk. destruct (Nat.eq_dec k (S n)) as [->|]; [exact E|]. apply IH; lia.
Qed.

Theorem lookup_ok ls buf t cs :
  lookup (layout_new ls) buf = Ok (t, cs) <-> longest_assigned ls buf t /\ cs = ways ls t.
Proof.
  unfold lookup. pose proof (longest_prefix_spec (trie (layout_new ls)) (length buf) buf) as H.
  destruct (longest_prefix _ _ _) as [[p cs']|]; cbn [of_opt].
  - destruct H as (k & Hk & -> & Hp & Hmax). apply trie_get_Some in Hp as [Ha ->].
    assert (L : longest_assigned ls buf (firstn k buf)).
    { split; [exact Ha|]. split; [exists (skipn k buf); symmetry; apply firstn_skipn|].
      intros t' Ha' [r Hr]. rewrite firstn_length, Nat.min_l by exact Hk.
      destruct (le_lt_dec (length t') k) as [|Hlt]; [assumption|exfalso].
      assert (Hle : length t' <= length buf) by (rewrite Hr, app_length; lia).
      specialize (Hmax (length t') (conj Hlt Hle)). apply trie_get_None in Hmax. apply Hmax.
      rewrite Hr, firstn_app, Nat.sub_diag, firstn_O, app_nil_r, firstn_all. exact Ha'. }
    split.
    + intros E; inversion E; subst. auto.
    + intros [(Ha' & [r Hr] & Hm') ->].
      assert (t = firstn k buf) as ->; [|reflexivity].
      destruct L as (_ & [r0 Hr0] & Hm0).
      assert (length t = length (firstn k buf)) as El.
      { apply Nat.le_antisymm; [apply Hm0; eauto|apply Hm'; eauto]. }
      rewrite firstn_length, Nat.min_l in El by exact Hk. rewrite <- El, Hr at 1.
      rewrite firstn_app, Nat.sub_diag, firstn_O, app_nil_r, firstn_all. reflexivity.
  - split; [discriminate|]. intros [(Ha & [r Hr] & _) _]. exfalso.
    assert (Hle : length t <= length buf) by (rewrite Hr, app_length; lia).
    specialize (H _ Hle). apply trie_get_None in H. apply H.
    rewrite Hr, firstn_app, Nat.sub_diag, firstn_O, app_nil_r, firstn_all. exact Ha.
Qed.

Theorem lookup_error ls buf e :
  lookup (layout_new ls) buf = Raise e <-> e = KeyError /\ unmapped ls buf.
Proof.
  unfold lookup. pose proof (longest_prefix_spec (trie (layout_new ls)) (length buf) buf) as H.
  destruct (longest_prefix _ _ _) as [[p cs']|]; cbn [of_opt].
  - destruct H as (k & Hk & -> & Hp & Hmax). apply trie_get_Some in Hp as [Ha ->].
    split; [discriminate|]. intros [_ Hu]. exfalso. apply (Hu _ Ha). exists (skipn k buf). symmetry; apply firstn_skipn.
  - split.
    + intros E; inversion E; subst. split; [reflexivity|]. intros t Ha [r Hr].
      assert (Hle : length t <= length buf) by (rewrite Hr, app_length; lia).
      specialize (H _ Hle). apply trie_get_None in H. apply H.
      rewrite Hr, firstn_app, Nat.sub_diag, firstn_O, app_nil_r, firstn_all. exact Ha.
    + intros [-> _]. reflexivity.
Qed.

(** * Buffer length *)
Lemma fold_max_ge cells n : n <= fold_left (fun n (bv : string * cell) => match snd bv with CText v => Nat.max (length v) n | COther => n end) cells n.
Proof.
  revert n; induction cells as [|[b [v|]] cells IH]; intros n; cbn [fold_left snd]; [lia| |apply IH].
  specialize (IH (Nat.max (length v) n)). lia.
Qed.
Lemma fold_max_in cells n b v : In (b, CText v) cells ->
  length v <= fold_left (fun n (bv : string * cell) => match snd bv with CText v => Nat.max (length v) n | COther => n end) cells n.
Proof.
  revert n; induction cells as [|c cells IH]; intros n Hi; [destruct Hi|]. destruct Hi as [->|Hi]; cbn [fold_left snd].
  - etransitivity; [|apply fold_max_ge]. lia.
  - apply IH, Hi.
Qed.
Lemma fold_max_attained cells n : let m := fold_left (fun n (bv : string * cell) => match snd bv with CText v => Nat.max (length v) n | COther => n end) cells n in
  m = n \/ exists b v, In (b, CText v) cells /\ length v = m.
Proof.
  cbn zeta. revert n; induction cells as [|[b [v|]] cells IH]; intros n; cbn [fold_left snd]; [auto| |].
  - destruct (IH (Nat.max (length v) n)) as [E|(b' & v' & Hi & E)].
    + rewrite E. destruct (Nat.max_spec (length v) n) as [[_ ->]|[_ ->]]; [auto|]. right. exists b, v. cbn; auto.
    + right. exists b', v'. cbn; auto.
  - destruct (IH n) as [E|(b' & v' & Hi & E)]; [auto|]. right. exists b', v'. cbn; auto.
Qed.
Lemma add_layer_buf st il : st_buf (add_layer st il) =
  fold_left (fun n bv => match snd bv with CText v => Nat.max (length v) n | COther => n end) (llayout (snd il)) (st_buf st).
Proof.
  destruct st as [[m2l t] bl], il as [i l]; unfold add_layer, st_buf; cbn [fst snd].
  pose proof (add_cells_buf (lmods l) (llayout l) (t, bl)) as E.
  destruct (fold_left (add_cell (lmods l)) (llayout l) (t, bl)) as [t' bl']. exact E.
Qed.
Lemma add_layers_buf_spec ils st :
  st_buf st <= st_buf (fold_left add_layer ils st) /\
  (forall l b v, In l (map snd ils) -> In (b, CText v) (llayout l) -> length v <= st_buf (fold_left add_layer ils st)) /\
  (st_buf (fold_left add_layer ils st) = st_buf st \/
   exists l b v, In l (map snd ils) /\ In (b, CText v) (llayout l) /\ length v = st_buf (fold_left add_layer ils st)).
Proof.
  revert st; induction ils as [|il ils IH]; intros st; cbn [fold_left map].
  - split; [lia|]. split; [intros l b v []|auto].
  - destruct (IH (add_layer st il)) as (H1 & H2 & H3). rewrite add_layer_buf in H1, H3.
    pose proof (fold_max_ge (llayout (snd il)) (st_buf st)) as G.
    split; [lia|]. split.
    + intros l b v [<-|Hl] Hi; [|eauto]. etransitivity; [|exact H1]. eapply fold_max_in, Hi.
    + destruct H3 as [E|(l & b & v & Hl & Hi & E)].
      * rewrite E. destruct (fold_max_attained (llayout (snd il)) (st_buf st)) as [E'|(b & v & Hi & E')]; [auto|].
        right. exists (snd il), b, v. cbn; auto.
      * right. exists l, b, v. cbn; auto.
Qed.
Lemma bufferLen_ge ls t : assigned ls t -> length t <= bufferLen (layout_new ls).
Proof.
  intros (b & l & Hl & Hb). rewrite layout_new_buf.
  destruct (add_layers_buf_spec (enumerate ls) ([], [], 0)) as (_ & H & _).
  rewrite enumerate_snd in H. eapply H; eauto.
Qed.
Lemma bufferLen_attained ls : bufferLen (layout_new ls) = 0 \/ exists t, assigned ls t /\ length t = bufferLen (layout_new ls).
Proof.
  rewrite layout_new_buf. destruct (add_layers_buf_spec (enumerate ls) ([], [], 0)) as (_ & _ & H).
  rewrite enumerate_snd in H. destruct H as [H|(l & b & v & Hl & Hb & E)]; [left; exact H|right].
  exists v. split; [exists b, l; auto|exact E].
Qed.

(** * Modifiers *)
Lemma fold_dset_mods (i : nat) (l : layer) (mods : list bset) d k :
  dget (fold_left (fun d m => dset d m (i, l)) mods d) k = if mem k mods then Some (i, l) else dget d k.
Proof.
  revert d; induction mods as [|m mods IH]; intros d; cbn [fold_left mem]; [reflexivity|].
  rewrite IH, dget_dset. destruct (mem k mods); [now rewrite orb_true_r|]. rewrite orb_false_r. reflexivity.
Qed.
Lemma add_layer_m2l st il k : dget (st_m2l (add_layer st il)) k =
  if mem k (lmods (snd il)) then Some il else dget (st_m2l st) k.
Proof.
  destruct st as [[m2l t] bl], il as [i l]; unfold add_layer, st_m2l; cbn [fst snd].
  destruct (fold_left (add_cell (lmods l)) (llayout l) (t, bl)) as [t' bl']. apply fold_dset_mods.
Qed.
Lemma add_layers_m2l ils st k : dget (st_m2l (fold_left add_layer ils st)) k =
  match find (fun il => mem k (lmods (snd il))) (rev ils) with Some il => Some il | None => dget (st_m2l st) k end.
Proof.
  revert st; induction ils as [|il ils IH]; intros st; cbn [fold_left rev]; [reflexivity|].
  rewrite IH, add_layer_m2l.
  assert (F : forall l, find (fun il => mem k (lmods (snd il))) (l ++ [il]) =
     match find (fun il => mem k (lmods (snd il))) l with Some x => Some x | None => if mem k (lmods (snd il)) then Some il else None end).
  { induction l as [|x l IHl]; cbn; [reflexivity|]. destruct (mem k (lmods (snd x))); auto. }
  rewrite F. destruct (find _ (rev ils)); [reflexivity|]. destruct (mem k (lmods (snd il))); reflexivity.
Qed.
Lemma enumerate_nth {A} (l : list A) i x : In (i, x) (enumerate l) <-> nth_error l i = Some x.
Proof.
  unfold enumerate.
  assert (G : forall n, In (i, x) (combine (seq n (length l)) l) <-> n <= i /\ nth_error l (i - n) = Some x).
  { induction l as [|y l IH]; intros n; cbn [length seq combine In].
    - split; [tauto|]. intros [_ E]. destruct (i - n); discriminate.
    - rewrite IH. split.
      + intros [E|[Hl E]]; [inversion E; subst; rewrite Nat.sub_diag; cbn; auto|].
        split; [lia|]. replace (i - n) with (S (i - S n)) by lia. exact E.
      + intros [Hl E]. destruct (Nat.eq_dec i n) as [->|].
        * rewrite Nat.sub_diag in E; cbn in E. inversion E; subst; auto.
        * right. split; [lia|]. replace (i - n) with (S (i - S n)) in E by lia. exact E. }
  rewrite G, Nat.sub_0_r. split; [tauto|]. intros E; split; [lia|exact E].
Qed.
Lemma enumerate_app {A} (a b : list A) : enumerate (a ++ b) = enumerate a ++ combine (seq (length a) (length b)) b.
Proof.
  unfold enumerate. rewrite app_length, seq_app. cbn.
  revert b. assert (G : forall a b n, combine (seq n (length a) ++ seq (n + length a) (length b)) (a ++ b) =
     combine (seq n (length a)) a ++ combine (seq (n + length a) (length b)) (b : list A)).
  { clear. induction a as [|x a IH]; intros b n; cbn; [now rewrite Nat.add_0_r|]. f_equal.
    specialize (IH b (S n)). replace (n + S (length a)) with (S n + length a) by lia. exact IH. }
  intros b. exact (G a b 0).
Qed.

Theorem modifierToLayer_ok ls m i l :
  modifierToLayer (layout_new ls) m = Ok (i, l) <->
  nth_error ls i = Some l /\ In m (lmods l) /\
  forall j l', i < j -> nth_error ls j = Some l' -> ~ In m (lmods l').
Proof.
  unfold modifierToLayer, dgetM. rewrite layout_new_m2l, add_layers_m2l. cbn [st_m2l fst dget].
  assert (G : find (fun il => mem m (lmods (snd il))) (rev (enumerate ls)) = Some (i, l) <->
     nth_error ls i = Some l /\ In m (lmods l) /\ forall j l', i < j -> nth_error ls j = Some l' -> ~ In m (lmods l')).
  { induction ls as [|x ls IH] using rev_ind; [cbn; split; [discriminate|]; intros [E _]; destruct i; discriminate|].
    rewrite enumerate_app, rev_app_distr. cbn. destruct (mem m (lmods x)) eqn:E.
    - apply mem_In in E. split.
      + intros X; inversion X; subst. rewrite nth_error_app2, Nat.sub_diag by lia. split; [reflexivity|]. split; [exact E|].
        intros j l' Hj Hn. exfalso. assert (j < length (ls ++ [l])) by (apply nth_error_Some; congruence).
        rewrite app_length in *; cbn in *; lia.
      + intros (Hn & Hm & Hl).
        assert (i < length (ls ++ [x])) as Hi by (apply nth_error_Some; congruence). rewrite app_length in Hi; cbn in Hi.
        destruct (Nat.eq_dec i (length ls)) as [->|].
        * rewrite nth_error_app2, Nat.sub_diag in Hn by lia. cbn in Hn. inversion Hn; subst. reflexivity.
        * exfalso. apply (Hl (length ls) x); [lia| |exact E]. rewrite nth_error_app2, Nat.sub_diag by lia. reflexivity.
    - apply mem_nIn in E. rewrite IH. split.
      + intros (Hn & Hm & Hl). assert (i < length ls) as Hi by (apply nth_error_Some; congruence).
        rewrite nth_error_app1 by exact Hi. split; [exact Hn|]. split; [exact Hm|]. intros j l' Hj Hn'.
        assert (j < length (ls ++ [x])) as Hjl by (apply nth_error_Some; congruence). rewrite app_length in Hjl; cbn in Hjl.
        destruct (Nat.eq_dec j (length ls)) as [->|].
        * rewrite nth_error_app2, Nat.sub_diag in Hn' by lia. cbn in Hn'. inversion Hn'; subst. exact E.
        * rewrite nth_error_app1 in Hn' by lia. eapply Hl; eauto.
      + intros (Hn & Hm & Hl).
        assert (i < length (ls ++ [x])) as Hi by (apply nth_error_Some; congruence). rewrite app_length in Hi; cbn in Hi.
        destruct (Nat.eq_dec i (length ls)) as [->|].
        * rewrite nth_error_app2, Nat.sub_diag in Hn by lia. cbn in Hn. inversion Hn; subst. contradiction.
        * rewrite nth_error_app1 in Hn by lia. split; [exact Hn|]. split; [exact Hm|]. intros j l' Hj Hn'.
          apply (Hl j l' Hj). rewrite nth_error_app1; [exact Hn'|]. apply nth_error_Some; congruence. }
  rewrite <- G. destruct (find _ _) as [il|]; cbn; split; congruence.
Qed.

Lemma modifierToLayer_some ls m : (exists l, In l ls /\ In m (lmods l)) -> exists il, modifierToLayer (layout_new ls) m = Ok il.
Proof.
  intros (l & Hl & Hm). unfold modifierToLayer, dgetM. rewrite layout_new_m2l, add_layers_m2l. cbn [st_m2l fst dget].
  destruct (find _ _) as [il|] eqn:E; [cbn; eauto|]. exfalso.
  apply In_nth_error in Hl as [i Hi]. apply enumerate_nth in Hi. apply in_rev in Hi.
  apply (find_none _ _ E) in Hi. cbn in Hi. apply mem_nIn in Hi. contradiction.
Qed.
Theorem modifierToLayer_error ls m e :
  modifierToLayer (layout_new ls) m = Raise e <-> e = KeyError /\ forall l, In l ls -> ~ In m (lmods l).
Proof.
  split.
  - intros E. split.
    + unfold modifierToLayer, dgetM in E. destruct (dget _ _); cbn in E; congruence.
    + intros l Hl Hm. destruct (@modifierToLayer_some ls m) as [il Hil]; [eauto|]. congruence.
  - intros [-> Hn]. destruct (modifierToLayer (layout_new ls) m) as [[i l]|e] eqn:E.
    + apply modifierToLayer_ok in E as (Hl & Hm & _). exfalso. eapply Hn; [eapply nth_error_In, Hl|exact Hm].
    + unfold modifierToLayer, dgetM in E. destruct (dget _ _); cbn in E; congruence.
Qed.
Theorem isModifier_spec ls m : isModifier (layout_new ls) m = true <-> exists l, In l ls /\ In m (lmods l).
Proof.
  split.
  - intros E. destruct (modifierToLayer (layout_new ls) m) as [[i l]|e] eqn:E'.
    + apply modifierToLayer_ok in E' as (Hl & Hm & _). exists l. split; [eapply nth_error_In, Hl|exact Hm].
    + unfold isModifier, dhas, modifierToLayer, dgetM in *. destruct (dget _ _); cbn in *; congruence.
  - intros H. apply modifierToLayer_some in H as [il Hil]. unfold isModifier, dhas, modifierToLayer, dgetM in *.
    destruct (dget _ _); cbn in *; congruence.
Qed.

(** * ways and getText *)
Lemma in_ways ls t c : In c (ways ls t) <->
  exists l b m, In l ls /\ In (b, CText t) (llayout l) /\ In m (lmods l) /\ c = mkComb m (frozenset [b]).
Proof.
  unfold ways. rewrite in_flat_map. split.
  - intros (l & Hl & Hc). apply in_flat_map in Hc as ([b [v|]] & Hb & Hc); cbn [fst snd] in Hc; [|destruct Hc].
    destruct (eqb_spec t v) as [->|]; [|destruct Hc]. apply in_map_iff in Hc as (m & <- & Hm). exists l, b, m. auto.
  - intros (l & b & m & Hl & Hb & Hm & ->). exists l. split; [exact Hl|]. apply in_flat_map. exists (b, CText t).
    split; [exact Hb|]. cbn [fst snd]. rewrite eqb_refl. apply in_map_iff. eauto.
Qed.

Theorem getText_ways ls t m b :
  layers_wf ls -> mods_disjoint ls ->
  (In (mkComb m (frozenset [b])) (ways ls t) <-> getText (layout_new ls) (mkComb m (frozenset [b])) = Ok (CText t)).
Proof.
  intros Hwf Hd. rewrite in_ways. unfold getText. cbn [cmod cbtn]. split.
  - intros (l & b' & m' & Hl & Hb & Hm & E).
    assert (m = m') as <- by exact (f_equal cmod E).
    assert (b = b') as <-.
    { assert (X : In b (elems (frozenset [b]))) by (cbn; auto).
      apply (f_equal cbtn) in E; cbn [cbtn] in E. rewrite E in X. cbn in X. destruct X as [->|[]]; reflexivity. }
    destruct (modifierToLayer (layout_new ls) m) as [[i l']|e] eqn:Em.
    + apply modifierToLayer_ok in Em as (Hi & Hm' & _).
      apply In_nth_error in Hl as [j Hj]. assert (j = i) by (eapply Hd; eauto). subst j.
      assert (l' = l) as -> by congruence. cbn.
      unfold dgetM. assert (Hw : dict_wf (llayout l)); [|apply (dget_In_iff _ _ _ Hw) in Hb; rewrite Hb; reflexivity].
      unfold layers_wf in Hwf. rewrite Forall_forall in Hwf. apply Hwf. eapply nth_error_In, Hi.
    + exfalso. apply modifierToLayer_error in Em as [_ Hn]. eapply Hn; eauto.
  - destruct (modifierToLayer (layout_new ls) m) as [[i l]|e] eqn:Em; cbn; [|discriminate].
    apply modifierToLayer_ok in Em as (Hi & Hm & _).
    unfold dgetM. destruct (dget (llayout l) b) as [v|] eqn:Ev; cbn; [|discriminate].
    intros E; inversion E; subst. apply dget_In in Ev. exists l, b, m. split; [eapply nth_error_In, Hi|]. auto.
Qed.

(** * Generic layouts *)
Theorem generic_roundtrip ord g : (forall s, Permutation (ord s) (elems s)) ->
  generic_deserialize (generic_serialize ord g) = g.
Proof.
  intros Ho. destruct g as [n ls]. unfold generic_deserialize, generic_serialize; cbn. f_equal.
  rewrite map_map. rewrite <- (map_id ls) at 2. apply map_ext. intros [ms cells]; cbn. f_equal.
  rewrite map_map. rewrite <- (map_id ms) at 2. apply map_ext. intros m.
  rewrite <- (frozenset_elems m) at 2. apply frozenset_ext. intros x.
  split; intros Hx; [eapply Permutation_in; [apply Ho|exact Hx]|eapply Permutation_in; [symmetry; apply Ho|exact Hx]].
Qed.
Theorem generic_len_buttons g : generic_len g = length (generic_buttons g).
Proof.
  unfold generic_len, generic_buttons.
  assert (G : forall ls n, fold_left (fun n l => n + length (llayout l)) ls n = n + length (flat_map llayout ls)).
  { induction ls as [|l ls IH]; intros n; cbn; [lia|]. rewrite IH, app_length. lia. }
  apply (G (glayers g) 0).
Qed.

Lemma kfind_ok names x : In x names -> kfind names x = Ok x.
Proof. intros H. unfold kfind. apply mem_In in H. rewrite H. reflexivity. Qed.
Lemma kfind_bad names x : ~ In x names -> kfind names x = Raise KeyError.
Proof. intros H. unfold kfind. apply mem_nIn in H. rewrite H. reflexivity. Qed.

Lemma mapM_KeyError {A B} (f : A -> res B) l x :
  In x l -> f x = Raise KeyError -> (forall y e, In y l -> f y = Raise e -> e = KeyError) -> mapM f l = Raise KeyError.
Proof.
  induction l as [|y l IH]; intros Hi E Ha; [destruct Hi|]. cbn.
  destruct (f y) as [z|e] eqn:Ey.
  - destruct Hi as [->|Hi]; [congruence|]. cbn. rewrite IH; auto. intros y' e Hy'. apply Ha. right; exact Hy'.
  - cbn. rewrite (Ha y e); cbn; auto.
Qed.

Lemma mapM_kfind_err names l e : mapM (kfind names) l = Raise e -> e = KeyError.
Proof.
  intros E. apply mapM_Raise_inv in E as (x & _ & E). unfold kfind in E. destruct (mem x names); congruence.
Qed.

Lemma specialize_layer_ok ord names l : (forall s, Permutation (ord s) (elems s)) -> dict_wf (llayout l) ->
  incl (flat_map elems (lmods l) ++ map fst (llayout l)) names -> specialize_layer ord names l = Ok l.
Proof.
  intros Ho Hwf Hi. unfold specialize_layer.
  rewrite mapM_total with (g := fun m => m).
  - cbn [bind]. rewrite mapM_total with (g := fun nv => nv).
    + cbn [bind]. rewrite !map_id. rewrite dict_of_id by exact Hwf. destruct l; reflexivity.
    + intros [n v] Hn. cbn. rewrite kfind_ok; [reflexivity|]. apply Hi, in_app_iff. right.
      apply in_map_iff. exists (n, v); auto.
  - intros m Hm. rewrite mapM_total with (g := fun x => x).
    + cbn [bind]. rewrite map_id. f_equal. rewrite <- (frozenset_elems m) at 2. apply frozenset_ext.
      intros x. split; apply Permutation_in; [|symmetry]; apply Ho.
    + intros x Hx. apply kfind_ok. apply Hi, in_app_iff. left. apply in_flat_map. exists m. split; [exact Hm|].
      eapply Permutation_in; [apply Ho|exact Hx].
Qed.
Lemma specialize_layer_err ord names l e : specialize_layer ord names l = Raise e -> e = KeyError.
Proof.
  unfold specialize_layer. destruct (mapM _ (lmods l)) as [ms|e1] eqn:E1; cbn.
  - destruct (mapM _ (llayout l)) as [cs|e2] eqn:E2; cbn; [discriminate|]. intros X; inversion X; subst.
    apply mapM_Raise_inv in E2 as (x & _ & E). unfold kfind in E. destruct (mem (fst x) names); cbn in E; congruence.
  - intros X; inversion X; subst. apply mapM_Raise_inv in E1 as (m & _ & E).
    destruct (mapM (kfind names) (ord m)) eqn:E'; cbn in E; [discriminate|]. inversion E; subst. eapply mapM_kfind_err, E'.
Qed.
Lemma specialize_layer_bad ord names l x : (forall s, Permutation (ord s) (elems s)) ->
  In x (flat_map elems (lmods l) ++ map fst (llayout l)) -> ~ In x names -> specialize_layer ord names l = Raise KeyError.
Proof.
  intros Ho Hx Hn. destruct (specialize_layer ord names l) as [l'|e] eqn:E; [exfalso|].
  - unfold specialize_layer in E.
    destruct (mapM _ (lmods l)) as [ms|e1] eqn:E1; cbn in E; [|discriminate].
    destruct (mapM _ (llayout l)) as [cs|e2] eqn:E2; cbn in E; [|discriminate].
    apply mapM_Ok_inv in E1. apply mapM_Ok_inv in E2. apply in_app_iff in Hx as [Hx|Hx].
    + apply in_flat_map in Hx as (m & Hm & Hx). clear - E1 Hm Hx Hn Ho. induction E1 as [|m' s ms ss E1 _ IH]; [destruct Hm|].
      destruct Hm as [->|Hm]; [|auto].
      destruct (mapM (kfind names) (ord m)) as [bs|] eqn:Eb; cbn in E1; [|discriminate].
      apply mapM_Ok_inv in Eb. apply (Permutation_in x (Permutation_sym (Ho m))) in Hx.
      clear - Eb Hx Hn. induction Eb as [|y z ys zs Ey _ IH]; [destruct Hx|]. destruct Hx as [->|Hx]; [|auto].
      rewrite kfind_bad in Ey by exact Hn. discriminate.
    + apply in_map_iff in Hx as ([n v] & En & Hx). cbn in En; subst n.
      clear - E2 Hx Hn. induction E2 as [|y z ys zs Ey _ IH]; [destruct Hx|]. destruct Hx as [->|Hx]; [|auto].
      cbn in Ey. rewrite kfind_bad in Ey by exact Hn. discriminate.
  - f_equal. eapply specialize_layer_err, E.
Qed.

Theorem specialize_ok ord names g : (forall s, Permutation (ord s) (elems s)) -> layers_wf (glayers g) ->
  incl (mentioned (glayers g)) names -> specialize ord names g = Ok (layout_new (glayers g)).
Proof.
  intros Ho Hwf Hi. unfold specialize. rewrite mapM_total with (g := fun l => l); [cbn; now rewrite map_id|].
  intros l Hl. apply specialize_layer_ok; [exact Ho| |].
  - unfold layers_wf in Hwf. rewrite Forall_forall in Hwf. auto.
  - intros x Hx. apply Hi. unfold mentioned. apply in_flat_map. eauto.
Qed.
Theorem specialize_error ord names g : (forall s, Permutation (ord s) (elems s)) ->
  ~ incl (mentioned (glayers g)) names -> specialize ord names g = Raise KeyError.
Proof.
  intros Ho Hn.
  assert (exists x, In x (mentioned (glayers g)) /\ ~ In x names) as (x & Hx & Hxn).
  { destruct (existsb (fun x => negb (mem x names)) (mentioned (glayers g))) eqn:E.
    - apply existsb_exists in E as (x & Hx & E). exists x. split; [exact Hx|]. apply mem_nIn.
      destruct (mem x names); [discriminate|reflexivity].
    - exfalso. apply Hn. intros x Hx. destruct (mem x names) eqn:Em; [apply mem_In, Em|].
      assert (existsb (fun x => negb (mem x names)) (mentioned (glayers g)) = true) as X; [|congruence].
      apply existsb_exists. exists x. rewrite Em. auto. }
  unfold mentioned in Hx. apply in_flat_map in Hx as (l & Hl & Hx).
  unfold specialize. erewrite mapM_KeyError; [reflexivity|exact Hl| |].
  - eapply specialize_layer_bad; eauto.
  - intros y e _. apply specialize_layer_err.
Qed.
