(** Braces, separators and names in the C source. *)
From Coq Require Import Ascii.
From Verif Require Import Base LayoutModel DataWinkbd DataCsrc WinkbdModel KlcModel CsrcModel CsrcSpec CsrcLex CsrcLines.
Open Scope string_scope.
Open Scope list_scope.

(** * Braces *)
Fixpoint flat (t : tree) : list tok := match t with T t => [t] | B l => TP "{" :: flat_map flat l ++ [TP "}"] end.
Definition brace (t : tok) : bool := match t with TP "{" | TP "}" => true | _ => false end.
Fixpoint plain (t : tree) : bool := match t with T t => negb (brace t) | B l => forallb plain l end.
Lemma bstep_leaf t cur stk : brace t = false -> bstep (Some (cur, stk)) t = Some (T t :: cur, stk).
Proof. intros H. destruct t as [| | |c| | |]; try reflexivity. destruct c as [[] [] [] [] [] [] [] []]; try reflexivity; discriminate. Qed.
Section Tree_ind.
Variable P : tree -> Prop.
Hypothesis HT : forall t, P (T t).
Hypothesis HB : forall l, Forall P l -> P (B l).
Fixpoint tree_ind' (t : tree) : P t :=
  match t with
  | T t => HT t
  | B l => HB l ((fix go l : Forall P l := match l with [] => Forall_nil P | x :: r => Forall_cons x (tree_ind' x) (go r) end) l)
  end.
End Tree_ind.
Lemma bstep_tree t : plain t = true -> forall cur stk, fold_left bstep (flat t) (Some (cur, stk)) = Some (t :: cur, stk).
Proof.
  induction t as [t|l IH] using tree_ind'; intros H cur stk.
  - cbn [flat fold_left]. cbn [plain] in H. apply bstep_leaf, negb_true_iff, H.
  - cbn [flat fold_left plain] in *. rewrite fold_left_app.
    change (bstep (Some (cur, stk)) (TP "{")) with (Some (@nil tree, cur :: stk)).
    assert (G : forall c s, fold_left bstep (flat_map flat l) (Some (c, s)) = Some (rev l ++ c, s)).
    { clear cur stk. induction IH as [|x l Hx IH IH']; intros c s; [reflexivity|]. cbn [flat_map forallb] in *. apply andb_true_iff in H as [H1 H2].
      rewrite fold_left_app, Hx by exact H1. rewrite IH' by exact H2. cbn [rev]. rewrite <- app_assoc. reflexivity. }
    rewrite G, app_nil_r. cbn [fold_left bstep]. change (bstep (Some (rev l, cur :: stk)) (TP "}")) with (Some (B (rev (rev l)) :: cur, stk)).
    rewrite rev_involutive. reflexivity.
Qed.
Lemma braces_flat l : forallb plain l = true -> braces (flat_map flat l) = Some l.
Proof.
  intros H. unfold braces.
  assert (G : forall c s, fold_left bstep (flat_map flat l) (Some (c, s)) = Some (rev l ++ c, s)).
  { induction l as [|x l IH]; intros c s; [reflexivity|]. cbn [flat_map forallb] in *. apply andb_true_iff in H as [H1 H2].
    rewrite fold_left_app, bstep_tree by exact H1. rewrite IH by exact H2. cbn [rev]. rewrite <- app_assoc. reflexivity. }
  rewrite G, app_nil_r, rev_involutive. reflexivity.
Qed.
Lemma flat_leaves ts : flat_map flat (map T ts) = ts.
Proof. induction ts as [|t ts IH]; [reflexivity|]. cbn. f_equal. exact IH. Qed.
Lemma plain_leaves ts : forallb plain (map T ts) = forallb (fun t => negb (brace t)) ts.
Proof. induction ts as [|t ts IH]; [reflexivity|]. cbn [map forallb plain]. rewrite IH. reflexivity. Qed.

(** * Separators *)
Definition comma : tree := T (TP ",").
Definition semi : tree := T (TP ";").
Lemma pieces_nonempty c l : pieces c l <> [].
Proof. destruct l as [|t l]; cbn; [discriminate|]. destruct (is_tok c t); [discriminate|]. destruct (pieces c l); discriminate. Qed.
Lemma pieces_sep c a b s : is_tok c s = true -> pieces c (a ++ s :: b) = pieces c a ++ pieces c b.
Proof.
  intros Hs. induction a as [|t a IH]; cbn [app pieces]; [rewrite Hs; reflexivity|]. destruct (is_tok c t); [cbn [app]; f_equal; exact IH|].
  rewrite IH. pose proof (pieces_nonempty c a) as Ne. destruct (pieces c a) as [|p ps]; [contradiction|]. reflexivity.
Qed.
Lemma pieces_one c a : forallb (fun t => negb (is_tok c t)) a = true -> pieces c a = [a].
Proof.
  induction a as [|t a IH]; intros H; [reflexivity|]. cbn [forallb pieces] in *. apply andb_true_iff in H as [H1 H2]. apply negb_true_iff in H1.
  rewrite H1, IH by exact H2. reflexivity.
Qed.
(** Elements *)
Definition elem_ok (e : list tree) : bool := match e with [] => false | _ => forallb (fun t => negb (is_tok "," t)) e end.
Fixpoint csep (es : list (list tree)) : list tree :=
  match es with [] => [] | [e] => e | e :: es' => e ++ comma :: csep es' end.
Definition cterm (es : list (list tree)) : list tree := flat_map (fun e => e ++ [comma]) es.
Lemma elem_ok_inv e : elem_ok e = true -> e <> [] /\ pieces "," e = [e].
Proof. intros H. split; [intros ->; discriminate|]. apply pieces_one. destruct e; [discriminate|exact H]. Qed.
Lemma drop_ok es : forallb elem_ok es = true -> drop_last_empty es = es.
Proof.
  induction es as [|e es IH]; intros H; [reflexivity|]. cbn [forallb] in H. apply andb_true_iff in H as [H1 H2]. cbn [drop_last_empty].
  destruct e as [|x e]; [discriminate|]. f_equal. apply IH, H2.
Qed.
Lemma drop_ok' es : forallb elem_ok es = true -> drop_last_empty (es ++ [[]]) = es.
Proof.
  induction es as [|e es IH]; intros H; [reflexivity|]. cbn [forallb] in H. apply andb_true_iff in H as [H1 H2]. cbn [app drop_last_empty].
  destruct e as [|x e]; [discriminate|]. f_equal. apply IH, H2.
Qed.
Lemma elements_pieces l es : drop_last_empty (pieces "," l) = es -> forallb elem_ok es = true -> elements l = Some es.
Proof.
  intros E H. unfold elements. rewrite E. assert (F : forallb (fun e : list tree => match e with [] => false | _ :: _ => true end) es = true).
  { rewrite forallb_forall in *. intros e He. specialize (H e He). destruct e; [discriminate|reflexivity]. }
  cbv zeta. rewrite F. reflexivity.
Qed.
Lemma elements_cterm es : forallb elem_ok es = true -> elements (cterm es) = Some es.
Proof.
  intros H. apply elements_pieces; [|exact H]. assert (E : pieces "," (cterm es) = es ++ [[]]).
  { unfold cterm. induction es as [|e es IH]; [reflexivity|]. cbn [forallb flat_map] in *. apply andb_true_iff in H as [H1 H2].
    rewrite <- app_assoc. cbn [app]. rewrite pieces_sep by reflexivity. rewrite (proj2 (elem_ok_inv e H1)), IH by exact H2. reflexivity. }
  rewrite E. apply drop_ok', H.
Qed.
Lemma elements_csep es : forallb elem_ok es = true -> elements (csep es) = Some es.
Proof.
  intros H. destruct es as [|e0 es0] eqn:E0; [reflexivity|]. rewrite <- E0 in *. apply elements_pieces; [|exact H].
  assert (E : pieces "," (csep es) = es).
  { assert (Hne : es <> []) by (rewrite E0; discriminate). clear E0. induction es as [|e es IH]; [contradiction|]. cbn [forallb csep] in *. apply andb_true_iff in H as [H1 H2].
    destruct es as [|e' es]; [apply elem_ok_inv, H1|]. rewrite pieces_sep by reflexivity. rewrite (proj2 (elem_ok_inv e H1)), IH by (exact H2 || discriminate). reflexivity. }
  rewrite E. apply drop_ok, H.
Qed.
Lemma all_some_map {A X} (f : A -> option X) (g : X -> A) l : Forall (fun x => f (g x) = Some x) l -> all_some f (map g l) = Some l.
Proof. induction 1 as [|x l Hx _ IH]; [reflexivity|]. cbn [map all_some]. rewrite Hx. cbn [obind]. rewrite IH. reflexivity. Qed.
Lemma all_some_app {A X} (f : A -> option X) a b x y : all_some f a = Some x -> all_some f b = Some y -> all_some f (a ++ b) = Some (x ++ y).
Proof.
  revert x. induction a as [|e a IH]; intros x Ha Hb; cbn [all_some app] in *; [injection Ha as <-; exact Hb|].
  destruct (f e) as [v|]; cbn [obind] in *; [|discriminate]. destruct (all_some f a) as [vs|]; cbn [obind] in *; [|discriminate].
  injection Ha as <-. rewrite (IH vs eq_refl Hb). reflexivity.
Qed.

(** * Tables *)
Lemma before_app ds n x b : ~ In n (map fst ds) -> before (ds ++ (n, x) :: b) n = ds.
Proof.
  induction ds as [|[m y] ds IH]; intros H; cbn [app before fst]; [rewrite String.eqb_refl; reflexivity|]. cbn [map fst In] in H.
  destruct (String.eqb m n) eqn:E; [apply String.eqb_eq in E; exfalso; apply H; left; exact E|]. f_equal. apply IH. intros Hi. apply H. right. exact Hi.
Qed.
Lemma before_in ds x n : In n (map fst ds) -> before (ds ++ x) n = before ds n.
Proof.
  induction ds as [|[m y] ds IH]; intros H; [destruct H|]. cbn [app before fst]. destruct (String.eqb m n) eqn:E; [reflexivity|].
  f_equal. apply IH. cbn in H. destruct H as [H|H]; [|exact H]. subst m. rewrite String.eqb_refl in E. discriminate.
Qed.
Lemma dget_app_in {V} (a b : list (string * V)) n v : dget a n = Some v -> dget (a ++ b) n = Some v.
Proof.
  induction a as [|[m y] a IH]; intros H; [discriminate|]. cbn [app dget] in *. destruct (eqb n m); [exact H|apply IH, H].
Qed.
Lemma dget_app_out {V} (a b : list (string * V)) n v : ~ In n (map fst a) -> dget (a ++ (n, v) :: b) n = Some v.
Proof.
  induction a as [|[m y] a IH]; intros H; cbn [app dget]; [rewrite eqb_refl; reflexivity|]. cbn in H.
  destruct (eqb_spec n m) as [E|E]; [exfalso; apply H; left; symmetry; exact E|]. apply IH. intros Hi. apply H. right. exact Hi.
Qed.
Lemma type_ok_app d x ty : type_ok d ty = true -> type_ok (d ++ x) ty = true.
Proof.
  unfold type_ok. destruct (String.eqb ty "unsigned short"); [reflexivity|]. cbn [orb].
  destruct (dget d ty) as [y|] eqn:E; [|discriminate]. rewrite (dget_app_in _ x _ _ E). rewrite before_in; [auto|].
  apply dget_In in E. apply (in_map fst) in E. exact E.
Qed.
Lemma table_ok d x b n ty arr i es : ~ In n (map fst (d ++ x)) -> type_ok d ty = true -> elements i = Some es ->
  table ((d ++ x) ++ (n, DTable ty arr i) :: b) arr ty n = Some es.
Proof.
  intros Hn Ht Hi. unfold table. rewrite dget_app_out by exact Hn. rewrite before_app by exact Hn.
  rewrite (type_ok_app _ x _ Ht), String.eqb_refl, Bool.eqb_reflx. cbn [andb opt_if obind]. exact Hi.
Qed.

(** * Names of tables *)
Lemma split_digits_all d : Forall (fun c => is_dec c = true) d -> split_digits d = ([], d).
Proof. induction 1 as [|c d Hc _ IH]; [reflexivity|]. cbn [split_digits]. rewrite IH, Hc. reflexivity. Qed.
Lemma split_digits_app a c d : is_dec c = false -> Forall (fun c => is_dec c = true) d -> split_digits (a ++ c :: d) = (a ++ [c], d).
Proof.
  intros Hc Hd. induction a as [|x a IH]; cbn [app split_digits]; [rewrite (split_digits_all d Hd), Hc; reflexivity|].
  rewrite IH. destruct (a ++ [c]) eqn:E; [destruct a; discriminate|]. reflexivity.
Qed.
Lemma dec_small n : Forall (fun c => (c < 256)%N) (dec n).
Proof.
  eapply Forall_impl; [|apply dec_digits]. intros c H. unfold is_dec in H. apply andb_true_iff in H as [_ H]. apply N.leb_le in H. lia.
Qed.
Lemma lit_small s : Forall (fun c => (c < 256)%N) (lit s).
Proof. unfold lit. rewrite Forall_forall. intros c Hc. apply in_map_iff in Hc as (a & <- & _). apply ascii_N_lt. Qed.
Definition good_name (t : tblname) : Prop := fst t = "" \/ fst t = "Num".
Lemma table_name_tname t : good_name t -> table_name (tname t) = Some t.
Proof.
  intros H. unfold table_name, tname. rewrite text_of_ascii_text by (unfold defname; rewrite !Forall_app; repeat split; try apply lit_small; apply dec_small).
  destruct t as [p n]. unfold defname. cbn [fst snd]. destruct H as [H|H]; cbn [fst] in H; subst p.
  - change (lit "aVkToWch" ++ lit "" ++ dec (N.of_nat n)) with (lit "aVkToWc" ++ 104%N :: dec (N.of_nat n)).
    rewrite split_digits_app by (reflexivity || apply dec_digits). change (lit "aVkToWc" ++ [104%N]) with (lit "aVkToWch").
    change (ascii_text (firstn 8 (lit "aVkToWch"))) with "aVkToWch". change (ascii_text (skipn 8 (lit "aVkToWch"))) with "". rewrite String.eqb_refl, read_dec. cbn [obind]. rewrite Nat2N.id. reflexivity.
  - change (lit "aVkToWch" ++ lit "Num" ++ dec (N.of_nat n)) with (lit "aVkToWchNu" ++ 109%N :: dec (N.of_nat n)).
    rewrite split_digits_app by (reflexivity || apply dec_digits). change (lit "aVkToWchNu" ++ [109%N]) with (lit "aVkToWchNum").
    change (ascii_text (firstn 8 (lit "aVkToWchNum"))) with "aVkToWch". change (ascii_text (skipn 8 (lit "aVkToWchNum"))) with "Num". rewrite String.eqb_refl, read_dec. cbn [obind]. rewrite Nat2N.id. reflexivity.
Qed.
Lemma columns_tyname n : columns_type (tyname n) = Some (N.of_nat n).
Proof.
  unfold columns_type, tyname. rewrite text_of_ascii_text by (rewrite Forall_app; split; [apply lit_small|apply dec_small]).
  change (lit "VK_TO_WCHARS" ++ dec (N.of_nat n)) with (lit "VK_TO_WCHAR" ++ 83%N :: dec (N.of_nat n)).
  rewrite split_digits_app by (reflexivity || apply dec_digits). change (lit "VK_TO_WCHAR" ++ [83%N]) with (lit "VK_TO_WCHARS").
  rewrite ascii_text_lit, String.eqb_refl, read_dec. reflexivity.
Qed.
Lemma good_chars t : good_name t -> forallb name_char (lit (fst t)) = true.
Proof. intros [-> | ->]; reflexivity. Qed.
