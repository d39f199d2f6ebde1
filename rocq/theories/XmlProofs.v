(** Proofs about XML files. *)
From Coq Require Import QArith Ascii Permutation.
From Verif Require Import PropsLayout PropsRender.
From Verif Require Import Base KeyboardModel LayoutModel LayoutProofs DataKeyboard RenderModel KlcModel CsrcModel CsrcSpec CsrcLex ExportModel ExportSpec ExportProofs FilesModel FilesSpec FilesProofs XmlModel XmlSpec.
Close Scope Q_scope.
Open Scope string_scope.
Open Scope list_scope.
Unset Implicit Arguments.

(** * Values *)
Lemma replace_flat c b (f : N -> text) (t : text) : replace c b (flat_map f t) = flat_map (fun x => replace c b (f x)) t.
Proof. unfold replace. induction t as [|x t IH]; [reflexivity|]. cbn [flat_map]. rewrite flat_map_app, IH. reflexivity. Qed.
Definition esc (c : N) : text :=
  (if c =? 38 then lit "&amp;" else if c =? 60 then lit "&lt;" else if c =? 62 then lit "&gt;" else if c =? 34 then lit "&quot;"
   else if c =? 13 then lit "&#13;" else if c =? 10 then lit "&#10;" else if c =? 9 then lit "&#09;" else [c])%N.
Lemma escape_esc t : escapeAttrib t = flat_map esc t.
Proof.
  unfold escapeAttrib. unfold replace at 7. repeat rewrite replace_flat. apply flat_map_ext. intros c. unfold esc.
  destruct (N.eqb_spec c 38) as [->|N1]; [vm_compute; reflexivity|]. 
  repeat (cbn [replace flat_map app]; match goal with |- context [(c =? ?k)%N] => let E := fresh "E" in destruct (N.eqb_spec c k) as [E|E]; [subst c; vm_compute; reflexivity|] end).
  reflexivity.
Qed.
Lemma esc_length c : 1 <= List.length (esc c).
Proof. unfold esc. repeat match goal with |- context [(c =? ?k)%N] => destruct (c =? k)%N end; cbn; lia. Qed.
Lemma read_value_esc t r : forall f, forallb xml_char t = true -> List.length (flat_map esc t) < f -> read_value f 34 (flat_map esc t ++ 34%N :: r) = Some (t, r).
Proof.
  induction t as [|c t IH]; intros f H L; cbn [forallb flat_map app List.length] in *; [destruct f; [lia|reflexivity]|].
  apply andb_prop in H as [Hc H]. rewrite app_length in L. pose proof (esc_length c) as Lc. destruct f as [|f]; [lia|]. assert (Lf : List.length (flat_map esc t) < f) by lia.
  specialize (IH f H Lf). rewrite <- app_assoc. unfold esc at 1.
  repeat match goal with |- context [if (c =? ?k)%N then lit ?s else _] => destruct (N.eqb_spec c k) as [->|]; [cbn; rewrite IH; reflexivity|] end.
  cbn [app read_value]. destruct (N.eqb_spec c 34); [contradiction|]. destruct (N.eqb_spec c 60); [contradiction|]. destruct (N.eqb_spec c 38); [contradiction|].
  rewrite IH, Hc. unfold is_ws. destruct (N.eqb_spec c 32) as [->|]; [reflexivity|]. destruct (N.eqb_spec c 9), (N.eqb_spec c 10), (N.eqb_spec c 13); try contradiction. reflexivity.
Qed.

(** * Names *)
Definition okname (s : string) : bool := match lit s with c :: n => name_start c && forallb name_char n | [] => false end.
Lemma span_at p a c r : forallb p a = true -> p c = false -> span p (a ++ c :: r) = (a, c :: r).
Proof. intros H C. induction a as [|x a IH]; cbn [app span]; [now rewrite C|]. cbn [forallb] in H. apply andb_prop in H as [Hx H]. rewrite Hx, (IH H). reflexivity. Qed.
Lemma read_name_at s c r : okname s = true -> name_char c = false -> read_name (lit s ++ c :: r) = Some (lit s, c :: r).
Proof.
  unfold okname, read_name. intros H C. destruct (lit s) as [|d n] eqn:E; [discriminate|]. apply andb_prop in H as [Hd H].
  rewrite (span_at name_char (d :: n)); [now rewrite Hd| |exact C]. cbn [forallb]. rewrite H. unfold name_char. rewrite Hd. reflexivity.
Qed.
Lemma okname_start s : okname s = true -> exists c n, lit s = c :: n /\ name_start c = true.
Proof. unfold okname. destruct (lit s) as [|c n]; [discriminate|]. intros H. apply andb_prop in H as [H _]. eauto. Qed.
Lemma start_plain c : name_start c = true -> is_ws c = false /\ (c =? 47)%N = false /\ (c =? 62)%N = false.
Proof. unfold name_start, is_ws. lia. Qed.

Lemma after_other a b c p n : (b =? c)%N = false -> after (a :: b :: p) (a :: c :: n) = None.
Proof. intros H. cbn [after]. rewrite N.eqb_refl, H. reflexivity. Qed.

(** * Attributes *)
Lemma read_attr_at k v r : okname k = true -> forallb xml_char v = true ->
  read_attr (lit k ++ lit "=" ++ quote ++ escapeAttrib v ++ quote ++ r) = Some (lit k, v, r).
Proof.
  intros Hk Hv. unfold read_attr. change (lit "=" ++ ?x) with (61%N :: x). rewrite read_name_at by (exact Hk || reflexivity).
  change (quote ++ escapeAttrib v ++ quote ++ r) with (34%N :: escapeAttrib v ++ 34%N :: r). cbn [N.eqb Pos.eqb andb is_q orb]. rewrite escape_esc.
  rewrite (read_value_esc v r); [reflexivity|exact Hv|]. rewrite app_length. cbn [List.length]. lia.
Qed.
Lemma attr_length kv : 1 <= List.length (attrText kv).
Proof. unfold attrText. cbn [app lit List.length]. rewrite app_length. cbn. lia. Qed.
Lemma attrs_length a : List.length a <= List.length (flat_map attrText a).
Proof. induction a as [|x a IH]; cbn [flat_map List.length]; [lia|]. rewrite app_length. pose proof (attr_length x). lia. Qed.
Definition okattr (kv : string * text) : bool := okname (fst kv) && forallb xml_char (snd kv).
Definition attr_of (kv : string * text) : text * text := (lit (fst kv), snd kv).
Lemma read_attrs_at a t t' : read_attrs 1 t = Some ([], t') -> forallb okattr a = true -> forall f, List.length a < f ->
  read_attrs f (flat_map attrText a ++ t) = Some (map attr_of a, t').
Proof.
  intros Ht. induction a as [|[k v] a IH]; intros H f L; cbn [flat_map app map List.length forallb] in *.
  - destruct f as [|f]; [lia|]. cbn [read_attrs] in *. destruct t as [|c t]; [discriminate|]. destruct (is_ws c); [|exact Ht].
    destruct (skip (c :: t)) as [|d s]; [discriminate|]. destruct ((d =? 47) || (d =? 62))%N; [exact Ht|]. destruct (read_attr (d :: s)) as [[[? ?] ?]|]; discriminate Ht.
  - apply andb_prop in H as [Hk H]. destruct f as [|f]; [lia|]. unfold okattr in Hk. cbn [fst snd] in Hk. apply andb_prop in Hk as [Hk Hv].
    unfold attrText at 1. cbn [fst snd]. rewrite <- !app_assoc. change (lit " " ++ ?x) with (32%N :: x). cbn [read_attrs].
    change (is_ws 32) with true. cbn iota. destruct (okname_start k Hk) as (c & n & E & S). destruct (start_plain c S) as (W & A & B).
    assert (Sk : forall x, skip (32%N :: lit k ++ x) = lit k ++ x) by (intros x; cbn [skip]; change (is_ws 32) with true; cbn iota; rewrite E; cbn [app skip]; now rewrite W).
    rewrite Sk. assert (M : forall x, match lit k ++ x with [] => false | d :: _ => negb ((d =? 47) || (d =? 62))%N end = true) by (intros x; rewrite E; cbn [app]; now rewrite A, B).
    specialize (M (lit "=" ++ quote ++ escapeAttrib v ++ quote ++ flat_map attrText a ++ t)).
    pose proof (read_attr_at k v (flat_map attrText a ++ t) Hk Hv) as R. destruct (lit k ++ _) as [|d s]; [discriminate M|].
    destruct ((d =? 47) || (d =? 62))%N; [discriminate M|]. rewrite R, (IH H f) by lia. reflexivity.
Qed.

(** * Elements *)
Lemma elem_ind' (P : elem -> Prop) : (forall t a k, Forall P k -> P (El t a k)) -> forall e, P e.
Proof. intros H. fix IH 1. intros [t a k]. apply H. induction k as [|x k IHk]; constructor; [apply IH|exact IHk]. Qed.
Fixpoint xml_of (e : elem) : xml := match e with El t a k => Xml (lit t) (map attr_of a) (map xml_of k) end.
Fixpoint good (e : elem) : bool :=
  match e with El t a k => okname t && forallb okattr a && nodupb (map (fun kv => lit (fst kv)) a) && forallb good k end.
Fixpoint need (e : elem) : nat := match e with El _ _ k => 2 + fold_right (fun x n => 1 + need x + n) 0 k end.
Definition kneed (k : list elem) : nat := 1 + fold_right (fun x n => 1 + need x + n) 0 k.
Lemma serialize_length e : S (need e) <= List.length (serialize e).
Proof.
  induction e as [t a k IH] using elem_ind'. cbn [need serialize]. rewrite !app_length. destruct k as [|x k]; [cbn; lia|].
  assert (K : forall k, Forall (fun e => S (need e) <= List.length (serialize e)) k -> fold_right (fun x n => 1 + need x + n) 0 k <= List.length (flat_map serialize k)).
  { clear. induction 1 as [|x k H _ IH]; cbn [fold_right flat_map List.length]; [lia|]. rewrite app_length. lia. }
  specialize (K _ IH). rewrite !app_length. cbn [lit List.length] in *. cbn. cbn in K. lia.
Qed.
Lemma serialize_start e : good e = true -> exists c n, serialize e = 60%N :: c :: n /\ name_start c = true.
Proof.
  destruct e as [t a k]. cbn [good serialize]. intros H. apply andb_prop in H as [H _]. apply andb_prop in H as [H _]. apply andb_prop in H as [H _].
  destruct (okname_start t H) as (c & n & E & S). exists c. eexists. split; [|exact S]. rewrite E. cbn [app]. reflexivity.
Qed.
Lemma read_elem_at e : good e = true -> forall f r, need e <= f -> read_elem f (serialize e ++ r) = Some (xml_of e, r).
Proof.
  induction e as [t a k IH] using elem_ind'. intros G f r L. cbn [good] in G. apply andb_prop in G as [G Gk]. apply andb_prop in G as [G Gn]. apply andb_prop in G as [Gt Ga].
  assert (Nd : nodupb (map fst (map attr_of a)) = true) by (rewrite map_map; exact Gn).
  destruct f as [|f]; [cbn [need] in L; lia|]. cbn [serialize xml_of]. rewrite <- !app_assoc.
  match goal with |- context [flat_map attrText a ++ ?b ++ r] => remember b as body eqn:Eb end.
  cbn [read_elem]. rewrite after_app.
  assert (Rn : read_name (lit t ++ flat_map attrText a ++ body ++ r) = Some (lit t, flat_map attrText a ++ body ++ r)).
  { assert (X : exists c q, flat_map attrText a ++ body ++ r = c :: q /\ name_char c = false).
    { destruct a as [|kv a]; [|exists 32%N; eexists; split; [reflexivity|reflexivity]]. cbn [flat_map app]. subst body. destruct k; cbn [app]; [exists 32%N|exists 62%N]; eexists; split; reflexivity. }
    destruct X as (c & q & E & C). rewrite E. apply read_name_at; assumption. }
  rewrite Rn. pose proof (attrs_length a) as La.
  destruct k as [|x k].
  - subst body. rewrite (read_attrs_at a (lit " />" ++ r) (lit "/>" ++ r)); [|reflexivity|exact Ga|rewrite !app_length; lia].
    rewrite Nd, after_app. reflexivity.
  - assert (Ra : read_attrs 1 (body ++ r) = Some ([], body ++ r)) by (subst body; reflexivity).
    rewrite (read_attrs_at a (body ++ r) (body ++ r) Ra Ga) by (rewrite !app_length; lia). rewrite Nd.
    assert (B1 : after (lit "/>") (body ++ r) = None) by (subst body; reflexivity). rewrite B1. subst body. rewrite <- !app_assoc, after_app.
    assert (K : forall k, Forall (fun e => good e = true -> forall f r, need e <= f -> read_elem f (serialize e ++ r) = Some (xml_of e, r)) k -> forallb good k = true ->
      forall f r, kneed k <= f -> read_kids f (flat_map serialize k ++ lit "</" ++ r) = Some (map xml_of k, r)).
    { clear. induction 1 as [|x k Hx _ IH]; intros G f r L; (destruct f as [|f]; [unfold kneed in L; lia|]); cbn [flat_map app map read_kids]; [reflexivity|].
      cbn [forallb] in G. apply andb_prop in G as [Gx G]. destruct (serialize_start x Gx) as (c & n & E & S). destruct (start_plain c S) as (W & A & _).
      rewrite <- app_assoc. assert (Sk : forall q, skip (serialize x ++ q) = serialize x ++ q) by (intros q; rewrite E; reflexivity). rewrite Sk.
      assert (Na : forall q, after (lit "</") (serialize x ++ q) = None) by (intros q; rewrite E; apply (after_other 60 47 c []); rewrite N.eqb_sym; exact A).
      rewrite Na. unfold kneed in L. cbn [fold_right] in L. rewrite (Hx Gx f) by lia. rewrite (IH G f); [reflexivity|]. unfold kneed. lia. }
    rewrite (K (x :: k) IH Gk f (lit t ++ lit ">" ++ r)); [|cbn [need] in L; unfold kneed; lia].
    change (lit ">" ++ r) with (62%N :: r). rewrite read_name_at by (exact Gt || reflexivity). change (skip (62%N :: r)) with (lit ">" ++ r). rewrite after_app, eqb_refl. reflexivity.
Qed.
Lemma read_doc_ask e : good e = true -> read_doc (lit "<?xml version='1.0' encoding='utf-8'?>" ++ nl ++ serialize e) = Some (xml_of e).
Proof.
  intros G. unfold read_doc. assert (D : forall t, read_decl (lit "<?xml version='1.0' encoding='utf-8'?>" ++ t) = Some t) by reflexivity. rewrite D.
  destruct (serialize_start e G) as (c & n & E & Sc). assert (Sk : skip (nl ++ serialize e) = serialize e) by (rewrite E; reflexivity). rewrite Sk.
  assert (T : read_type (serialize e) = Some (serialize e)).
  { unfold read_type. rewrite E. change (lit "<!DOCTYPE ") with (60%N :: 33%N :: lit "DOCTYPE "). rewrite (after_other 60 33 c (lit "DOCTYPE ") n); [reflexivity|]. destruct (N.eqb_spec 33 c) as [<-|]; [discriminate Sc|reflexivity]. }
  rewrite T. assert (Sk' : skip (serialize e) = serialize e) by (rewrite E; reflexivity). rewrite Sk'.
  pose proof (read_elem_at e G (S (List.length (serialize e))) []) as R. rewrite app_nil_r in R. rewrite R; [reflexivity|]. pose proof (serialize_length e). lia.
Qed.
Lemma read_doc_mac e : good e = true -> read_doc (keylayoutDecl ++ serialize e) = Some (xml_of e).
Proof.
  intros G. unfold read_doc. assert (D : forall t, match read_decl (keylayoutDecl ++ t) with Some t => read_type (skip t) | None => None end = Some (nl ++ t)) by reflexivity.
  specialize (D (serialize e)). destruct (read_decl (keylayoutDecl ++ serialize e)) as [t|]; [|discriminate D]. rewrite D.
  destruct (serialize_start e G) as (c & n & E & Sc). assert (Sk : skip (nl ++ serialize e) = serialize e) by (rewrite E; reflexivity). rewrite Sk.
  pose proof (read_elem_at e G (S (List.length (nl ++ serialize e))) []) as R. rewrite app_nil_r in R. rewrite R; [reflexivity|]. pose proof (serialize_length e). rewrite app_length. lia.
Qed.

(** * macOS *)
Lemma lit_inj a b : lit a = lit b -> a = b.
Proof.
  unfold lit. intros H. rewrite <- (string_of_list_ascii_of_string a), <- (string_of_list_ascii_of_string b). f_equal.
  revert H. generalize (list_ascii_of_string a), (list_ascii_of_string b). clear. induction l as [|c l IH]; intros [|d q] H; cbn [map] in H; try discriminate; [reflexivity|].
  assert (Hc : N_of_ascii c = N_of_ascii d) by congruence. assert (Hl : map N_of_ascii l = map N_of_ascii q) by congruence. rewrite (IH q Hl). f_equal.
  rewrite <- (ascii_N_embedding c), <- (ascii_N_embedding d), Hc. reflexivity.
Qed.
Lemma filter_all {A B} (p : B -> bool) (f : A -> B) l : (forall a, p (f a) = true) -> filter p (map f l) = map f l.
Proof. intros H. induction l as [|a l IH]; cbn [map filter]; [reflexivity|]. rewrite H, IH. reflexivity. Qed.
Lemma flat_map_map {A B C} (f : B -> list C) (g : A -> B) l : flat_map f (map g l) = flat_map (fun a => f (g a)) l.
Proof. induction l as [|a l IH]; cbn [map flat_map]; [reflexivity|]. now rewrite IH. Qed.
Lemma num_dec x n v : attr x n = Some (dec v) -> num x n = Some v.
Proof. unfold num. intros ->. destruct (dec v) as [|c t] eqn:E; [destruct (dec_nonempty v E)|]. rewrite <- E. apply dec_number. Qed.
Lemma has_dec x n v w : attr x n = Some (dec v) -> has x n w = (v =? w)%N.
Proof. intros H. unfold has. rewrite (num_dec x n v H). reflexivity. Qed.
Lemma of_nat_eqb i j : (N.of_nat i =? N.of_nat j)%N = Nat.eqb i j.
Proof. destruct (N.eqb_spec (N.of_nat i) (N.of_nat j)), (Nat.eqb_spec i j); try reflexivity; lia. Qed.
Definition kl_key (ct : N * text) : xml := Xml (lit "key") [(lit "code", dec (fst ct)); (lit "output", snd ct)] [].
Definition kl_map (ik : nat * list (N * text)) : xml := Xml (lit "keyMap") [(lit "index", str (fst ik))] (map kl_key (snd ik)).
Definition kl_select (s : nat * string) : xml := Xml (lit "keyMapSelect") [(lit "mapIndex", str (fst s))] [Xml (lit "modifier") [(lit "keys", lit (snd s))] []].
Lemma keys_of_map i ks code :
  flat_map (fun k => if has k "code" code then match attr k "output" with Some t => [t] | None => [] end else []) (named_kids (kl_map (i, ks)) "key")
  = map snd (filter (fun ct => (fst ct =? code)%N) ks).
Proof.
  unfold named_kids, kl_map. cbn [kids snd]. rewrite filter_all by (intros; reflexivity). rewrite flat_map_map.
  induction ks as [|[c t] ks IH]; cbn [flat_map filter map fst snd]; [reflexivity|]. rewrite IH.
  rewrite (has_dec (kl_key (c, t)) "code" c code) by reflexivity. destruct (c =? code)%N; reflexivity.
Qed.
Lemma kl_tree name m : xml_of (keylayoutTree name m) =
  Xml (lit "keyboard") [(lit "group", lit "0"); (lit "id", lit "14242"); (lit "name", name); (lit "maxout", lit "3")]
    [Xml (lit "modifierMap") [(lit "id", str 0); (lit "defaultIndex", lit "0")] (map kl_select (mselect m));
     Xml (lit "keyMapSet") [(lit "id", str 1)] (map kl_map (mmaps m));
     Xml (lit "layouts") [] [Xml (lit "layout") [(lit "first", lit "0"); (lit "last", lit "0"); (lit "modifiers", str 0); (lit "mapSet", str 1)] []]].
Proof.
  unfold keylayoutTree. cbn [xml_of map attr_of fst snd]. do 3 f_equal; [rewrite map_map; reflexivity|]. do 2 f_equal. rewrite map_map. apply map_ext. intros [i ks].
  cbn [xml_of map attr_of fst snd]. unfold kl_map. cbn [fst snd]. f_equal. rewrite map_map. reflexivity.
Qed.
Lemma kl_types_tree name m mods code : kl_types (xml_of (keylayoutTree name m)) (lit mods) code = m_types m mods code.
Proof.
  rewrite kl_tree. unfold kl_types, m_types.
  remember (map kl_select (mselect m)) as S0 eqn:ES. remember (map kl_map (mmaps m)) as M0 eqn:EM.
  match goal with |- context [named_kids ?x "layouts"] => change (flat_map (fun l => named_kids l "layout") (named_kids x "layouts"))
    with [Xml (lit "layout") [(lit "first", lit "0"); (lit "last", lit "0"); (lit "modifiers", str 0); (lit "mapSet", str 1)] []];
    change (named_kids x "keyMapSet") with [Xml (lit "keyMapSet") [(lit "id", str 1)] M0];
    change (named_kids x "modifierMap") with [Xml (lit "modifierMap") [(lit "id", str 0); (lit "defaultIndex", lit "0")] S0] end.
  cbn [firstn flat_map]. rewrite app_nil_r.
  match goal with |- context [attr ?x "modifiers"] => change (attr x "modifiers") with (Some (str 0)); change (attr x "mapSet") with (Some (str 1)) end.
  cbn iota beta.
  match goal with |- context [if eqb (attr ?x "id") (Some (str 0)) then named_kids ?x "keyMapSelect" else []] =>
    replace (if eqb (attr x "id") (Some (str 0)) then named_kids x "keyMapSelect" else []) with S0
      by (change (attr x "id") with (Some (str 0)); rewrite eqb_refl; unfold named_kids; cbn [kids]; subst S0; symmetry; apply filter_all; reflexivity) end.
  match goal with |- context [if eqb (attr ?x "id") (Some (str 1)) then named_kids ?x "keyMap" else []] =>
    replace (if eqb (attr x "id") (Some (str 1)) then named_kids x "keyMap" else []) with M0
      by (change (attr x "id") with (Some (str 1)); rewrite eqb_refl; unfold named_kids; cbn [kids]; subst M0; symmetry; apply filter_all; reflexivity) end.
  rewrite !app_nil_r. subst S0 M0. rewrite flat_map_map. apply flat_map_ext. intros [i s]. cbn [snd fst].
  assert (K : existsb (fun m => eqb (attr m "keys") (Some (lit mods))) (named_kids (kl_select (i, s)) "modifier") = String.eqb s mods).
  { change (named_kids (kl_select (i, s)) "modifier") with [Xml (lit "modifier") [(lit "keys", lit s)] []]. cbn [existsb]. rewrite orb_false_r.
    change (attr (Xml (lit "modifier") [(lit "keys", lit s)] []) "keys") with (Some (lit s)).
    destruct (eqb_spec (Some (lit s)) (Some (lit mods))) as [E|E], (String.eqb_spec s mods) as [F|F]; try reflexivity; [destruct F; apply lit_inj; congruence|destruct E; congruence]. }
  rewrite K. destruct (String.eqb s mods); [|reflexivity]. rewrite (num_dec (kl_select (i, s)) "mapIndex" (N.of_nat i)) by reflexivity.
  rewrite flat_map_map. apply flat_map_ext. intros [j ks]. cbn [fst snd]. rewrite (has_dec (kl_map (j, ks)) "index" (N.of_nat j)) by reflexivity.
  rewrite of_nat_eqb. destruct (Nat.eqb j i); [|reflexivity]. apply keys_of_map.
Qed.
Lemma dec_xml n : forallb xml_char (dec n) = true.
Proof. apply forallb_forall. intros c H. apply dec_digit in H. unfold xml_char. lia. Qed.
Definition kl_chars (name : text) (m : mkeylayout) : Prop :=
  forallb xml_char name = true /\ (forall s, In s (mselect m) -> forallb xml_char (lit (snd s)) = true) /\
  (forall ik ct, In ik (mmaps m) -> In ct (snd ik) -> forallb xml_char (snd ct) = true).
Lemma good_El t a k : okname t = true -> nodupb (map (fun kv => lit (fst kv)) a) = true -> Forall (fun kv => okattr kv = true) a -> (forall e, In e k -> good e = true) -> good (El t a k) = true.
Proof. intros A B C D. cbn [good]. rewrite A, B. rewrite (proj2 (forallb_forall okattr a)) by (apply Forall_forall, C). rewrite (proj2 (forallb_forall good k) D). reflexivity. Qed.
Lemma okattr_at k v : okname k = true -> forallb xml_char v = true -> okattr (k, v) = true.
Proof. intros A B. unfold okattr. cbn [fst snd]. rewrite A, B. reflexivity. Qed.
Ltac attrs_ok := repeat (constructor; [apply okattr_at; [vm_compute; reflexivity|]|]); try apply Forall_nil.
Lemma kl_good name m : kl_chars name m -> good (keylayoutTree name m) = true.
Proof.
  intros (Hn & Hs & Hm). unfold keylayoutTree. apply good_El; [vm_compute; reflexivity|vm_compute; reflexivity| |].
  { attrs_ok; try exact Hn; vm_compute; reflexivity. }
  intros e [<-|[<-|[<-|[]]]]; (apply good_El; [vm_compute; reflexivity|vm_compute; reflexivity|attrs_ok; apply dec_xml || (vm_compute; reflexivity)|]).
  - intros e He. apply in_map_iff in He as (s & <- & Is). apply good_El; [vm_compute; reflexivity|vm_compute; reflexivity|attrs_ok; apply dec_xml|].
    intros e [<-|[]]. apply good_El; [vm_compute; reflexivity|vm_compute; reflexivity|attrs_ok; apply Hs, Is|intros e []].
  - intros e He. apply in_map_iff in He as (ik & <- & Ik). apply good_El; [vm_compute; reflexivity|vm_compute; reflexivity|attrs_ok; apply dec_xml|].
    intros e He. apply in_map_iff in He as (ct & <- & Ic). apply good_El; [vm_compute; reflexivity|vm_compute; reflexivity|attrs_ok; [apply dec_xml|exact (Hm ik ct Ik Ic)]|intros e []].
  - intros e [<-|[]]. apply good_El; [vm_compute; reflexivity|vm_compute; reflexivity|attrs_ok; vm_compute; reflexivity|intros e []].
Qed.

(** * Anysoft keyboard *)
Lemma dec_free p n : (forall c, (48 <= c <= 57)%N -> p c = false) -> free p (dec n).
Proof. intros H c Hc. apply H, (dec_digit n c Hc). Qed.
Lemma comma_free n : free is_comma (dec n).
Proof. apply dec_free. unfold is_comma. lia. Qed.
Lemma split_codes n l : split (S (List.length (join (lit ",") (map dec (n :: l))))) is_comma (join (lit ",") (map dec (n :: l))) = map dec (n :: l).
Proof.
  revert n. induction l as [|m l IH]; intros n; [apply split_none, comma_free|].
  change (join (lit ",") (map dec (n :: m :: l))) with (dec n ++ 44%N :: join (lit ",") (map dec (m :: l))). rewrite split_at by (apply comma_free || reflexivity). rewrite IH. reflexivity.
Qed.
Lemma numbers_codes l : numbers (join (lit ",") (map dec l)) = Some l.
Proof.
  unfold numbers. destruct l as [|n l]; [reflexivity|]. rewrite split_codes.
  destruct (join (lit ",") (map dec (n :: l))) as [|n0 t0] eqn:E.
  - exfalso. destruct l as [|m l]; [exact (dec_nonempty n E)|]. cbn [map join] in E. apply app_eq_nil in E as [E _]. exact (dec_nonempty n E).
  - clear E t0. apply all_of_map. induction (n :: l) as [|x q IH]; constructor; [|exact IH]. destruct (dec x) as [|c t] eqn:E; [destruct (dec_nonempty x E)|]. rewrite <- E. apply dec_number.
Qed.
Lemma dec_one n : (n < 10)%N -> dec n = [(48 + n)%N].
Proof. intros H. assert (C : (n = 0 \/ n = 1 \/ n = 2 \/ n = 3 \/ n = 4 \/ n = 5 \/ n = 6 \/ n = 7 \/ n = 8 \/ n = 9)%N) by lia. repeat destruct C as [C|C]; subst n; reflexivity. Qed.
Lemma width_text w : (0 <= w)%Z -> width (widthText w) = Some w.
Proof.
  intros H. unfold width, widthText. set (n := Z.to_N w).
  assert (A : (n mod 100 / 10 < 10)%N) by (apply N.div_lt_upper_bound; [discriminate|]; pose proof (N.mod_lt n 100); lia).
  assert (B : (n mod 10 < 10)%N) by (apply N.mod_lt; discriminate). rewrite (dec_one _ A), (dec_one _ B).
  change (lit "." ++ ?x) with (46%N :: x). rewrite cut_at; [|apply dec_free; unfold is_dot; lia|reflexivity].
  change ([(48 + n mod 100 / 10)%N] ++ [(48 + n mod 10)%N] ++ lit "%p") with [(48 + n mod 100 / 10)%N; (48 + n mod 10)%N; 37%N; 112%N].
  destruct (dec (n / 100)) as [|c t] eqn:E; [destruct (dec_nonempty _ E)|]. rewrite <- E, dec_number. cbn [number].
  assert (D : forall d, (d < 10)%N -> ((48 <=? 48 + d) && (48 + d <=? 57))%N = true) by (intros d Hd; lia). rewrite (D _ A), (D _ B). f_equal.
  replace (48 + n mod 100 / 10 - 48)%N with (n mod 100 / 10)%N by lia. replace (48 + n mod 10 - 48)%N with (n mod 10)%N by lia.
  assert (M : (n mod 10 = n mod 100 mod 10)%N).
  { rewrite (N.div_mod n 100) at 1 by discriminate. rewrite <- (N.mod_add (n mod 100) (10 * (n / 100)) 10) by discriminate. f_equal. lia. }
  pose proof (N.div_mod n 100 ltac:(discriminate)). pose proof (N.div_mod (n mod 100) 10 ltac:(discriminate)). unfold n in *. lia.
Qed.
Definition ask_okrow (r : arow) : Prop := (forall w, awidth r = Some w -> (0 <= w)%Z) /\ (atop r && abottom r = false).
Lemma ask_key_at k : ask_key_of (xml_of (askKeyElem k)) = Some k.
Proof.
  destruct k as [[c l p h]|]; [|reflexivity]. unfold askKeyElem, ask_key_of. cbn [acodes alabel apopup ahint xml_of map attr_of fst snd].
  match goal with |- context [attr ?x "android:codes"] => change (attr x "android:codes") with (Some (join (lit ",") (map dec c)));
    change (attr x "android:keyLabel") with (Some l); change (attr x "android:popupCharacters") with (Some p); change (attr x "ask:hintLabel") with (Some h) end.
  change (negb (eqb (tag _) (lit "Key"))) with false. cbn [attrs]. rewrite numbers_codes. reflexivity.
Qed.
Lemma ask_row_at r : ask_okrow r -> ask_row_of (xml_of (askRowElem r)) = Some r.
Proof.
  destruct r as [w tp bt ks]. intros [Hw Hb]. cbn [awidth atop abottom] in *. unfold askRowElem, ask_row_of. cbn [awidth atop abottom akeys].
  assert (K : all_of ask_key_of (kids (xml_of (El "Row" ((match w with Some w => [("android:keyWidth", widthText w)] | None => [] end)
     ++ (if tp then [("android:rowEdgeFlags", lit "top"); ("android:keyHeight", lit "@integer/key_short_height")] else [])
     ++ (if bt then [("android:rowEdgeFlags", lit "bottom"); ("android:keyHeight", lit "@integer/key_normal_height")] else [])) (map askKeyElem ks)))) = Some ks).
  { cbn [xml_of kids]. apply all_of_map. clear. induction ks as [|k ks IH]; constructor; [apply ask_key_at|exact IH]. }
  rewrite K. clear K. cbn [xml_of]. change (negb (eqb (tag _) (lit "Row"))) with false. cbn iota.
  destruct w as [w|], tp, bt; try discriminate Hb; cbn [app map attr_of fst snd];
    match goal with |- context [match attr ?x "android:keyWidth" with _ => _ end] => let v := fresh "v" in
      (change (attr x "android:keyWidth") with (Some (widthText w)) || change (attr x "android:keyWidth") with (@None text));
      (change (attr x "android:rowEdgeFlags") with (Some (lit "top")) || change (attr x "android:rowEdgeFlags") with (Some (lit "bottom")) || change (attr x "android:rowEdgeFlags") with (@None text)) end;
    cbn iota beta; try (rewrite (width_text w (Hw w eq_refl)); cbn [option_map]); reflexivity.
Qed.
Lemma ask_read_tree rs : Forall ask_okrow rs -> ask_read (xml_of (askTree rs)) = Some rs.
Proof.
  intros H. unfold ask_read, askTree. cbn [xml_of]. change (eqb (tag _) (lit "Keyboard")) with true. cbn [kids]. apply all_of_map.
  induction H as [|r rs Hr _ IH]; constructor; [apply ask_row_at, Hr|exact IH].
Qed.
Definition ask_chars (k : option akey) : Prop :=
  match k with Some k => forallb xml_char (alabel k) = true /\ forallb xml_char (apopup k) = true /\ forallb xml_char (ahint k) = true | None => True end.
Lemma codes_xml l : forallb xml_char (join (lit ",") (map dec l)) = true.
Proof.
  induction l as [|n l IH]; [reflexivity|]. destruct l as [|m l]; [apply dec_xml|]. change (join (lit ",") (map dec (n :: m :: l))) with (dec n ++ 44%N :: join (lit ",") (map dec (m :: l))).
  rewrite forallb_app, dec_xml. cbn [forallb andb]. rewrite IH. reflexivity.
Qed.
Lemma width_xml w : forallb xml_char (widthText w) = true.
Proof. unfold widthText. rewrite !forallb_app, !dec_xml. reflexivity. Qed.
Lemma ask_good rs : (forall r k, In r rs -> In k (akeys r) -> ask_chars k) -> Forall ask_okrow rs -> good (askTree rs) = true.
Proof.
  intros H F. unfold askTree. apply good_El; [vm_compute; reflexivity|vm_compute; reflexivity|attrs_ok; vm_compute; reflexivity|].
  intros e He. apply in_map_iff in He as (r & <- & Ir). rewrite Forall_forall in F. destruct (F r Ir) as [Hw Hb].
  unfold askRowElem. apply good_El; [vm_compute; reflexivity| | |].
  - destruct (awidth r) as [w|], (atop r), (abottom r); try discriminate Hb; vm_compute; reflexivity.
  - destruct (awidth r) as [w|], (atop r), (abottom r); try discriminate Hb; cbn [app]; attrs_ok; first [apply width_xml|vm_compute; reflexivity].
  - intros e He. apply in_map_iff in He as (k & <- & Ik). specialize (H r k Ir Ik). destruct k as [k|]; [|vm_compute; reflexivity]. destruct H as (A & B & C).
    apply good_El; [vm_compute; reflexivity|vm_compute; reflexivity|attrs_ok; first [apply codes_xml|assumption]|intros e []].
Qed.
Lemma ask_ns rs : Forall ask_okrow rs -> ns_ok [] (xml_of (askTree rs)) = true.
Proof.
  intros F. unfold askTree. cbn [xml_of map attr_of fst snd ns_ok].
  match goal with |- context [declared ?a ++ []] => change (declared a ++ []) with [lit "android"; lit "ask"] end.
  apply andb_true_iff. split; [reflexivity|]. rewrite map_map. apply forallb_forall. intros x Hx. apply in_map_iff in Hx as (r & <- & Ir).
  rewrite Forall_forall in F. destruct (F r Ir) as [Hw Hb].
  assert (K : forall b, declared b = [] -> forallb (ns_ok ([] ++ [lit "android"; lit "ask"])) (map xml_of (map askKeyElem (akeys r))) = true).
  { intros _ _. rewrite map_map. apply forallb_forall. intros x Hx. apply in_map_iff in Hx as (k & <- & _). destruct k as [[c l p h]|]; reflexivity. }
  unfold askRowElem. destruct (awidth r) as [w|], (atop r), (abottom r); try discriminate Hb; cbn [app xml_of map attr_of fst snd ns_ok];
    apply andb_true_iff; (split; [reflexivity|exact (K [] eq_refl)]).
Qed.

(** * Characters XML documents cannot have *)
Fixpoint named (e : elem) : bool :=
  match e with El t a k => okname t && forallb (fun kv : string * text => okname (fst kv)) a && nodupb (map (fun kv => lit (fst kv)) a) && forallb named k end.
Fixpoint chars (e : elem) : bool := match e with El _ a k => forallb (fun kv : string * text => forallb xml_char (snd kv)) a && forallb chars k end.
Lemma okattr_split a : forallb okattr a = forallb (fun kv : string * text => okname (fst kv)) a && forallb (fun kv : string * text => forallb xml_char (snd kv)) a.
Proof. induction a as [|x a IH]; cbn [forallb]; [reflexivity|]. rewrite IH. unfold okattr. destruct (okname (fst x)), (forallb xml_char (snd x)), (forallb (fun kv : string * text => okname (fst kv)) a); reflexivity. Qed.
Lemma good_split e : good e = named e && chars e.
Proof.
  induction e as [t a k IH] using elem_ind'. cbn [good named chars]. rewrite okattr_split.
  assert (K : forallb good k = forallb named k && forallb chars k).
  { induction IH as [|x k Hx _ IHk]; cbn [forallb]; [reflexivity|]. rewrite Hx, IHk. destruct (named x), (chars x), (forallb named k); reflexivity. }
  rewrite K. destruct (okname t), (forallb (fun kv : string * text => okname (fst kv)) a), (nodupb (map (fun kv => lit (fst kv)) a)), (forallb (fun kv : string * text => forallb xml_char (snd kv)) a), (forallb named k); reflexivity.
Qed.
Lemma read_value_bad t r : forallb xml_char t = false -> forall f, read_value f 34 (flat_map esc t ++ r) = None.
Proof.
  induction t as [|c t IH]; [discriminate|]. intros H f. destruct f as [|f]; [reflexivity|]. cbn [forallb] in H. cbn [flat_map]. rewrite <- app_assoc.
  destruct (xml_char c) eqn:Hc.
  - specialize (IH H f). unfold esc at 1.
    repeat match goal with |- context [if (c =? ?k)%N then lit ?s else _] => destruct (N.eqb_spec c k) as [->|]; [cbn; rewrite IH; reflexivity|] end.
    cbn [app read_value]. destruct (N.eqb_spec c 34); [contradiction|]. destruct (N.eqb_spec c 60); [contradiction|]. destruct (N.eqb_spec c 38); [contradiction|].
    rewrite IH, Hc. destruct (is_ws c); reflexivity.
  - assert (E : esc c = [c]) by (unfold esc; repeat match goal with |- context [(c =? ?k)%N] => destruct (N.eqb_spec c k) as [->|]; [discriminate Hc|] end; reflexivity).
    rewrite E. cbn [app read_value]. rewrite Hc. unfold is_ws. repeat match goal with |- context [(c =? ?k)%N] => destruct (N.eqb_spec c k) as [->|]; [discriminate Hc|] end. reflexivity.
Qed.
Lemma read_attr_bad k v r : okname k = true -> forallb xml_char v = false -> read_attr (lit k ++ lit "=" ++ quote ++ escapeAttrib v ++ quote ++ r) = None.
Proof.
  intros Hk Hv. unfold read_attr. change (lit "=" ++ ?x) with (61%N :: x). rewrite read_name_at by (exact Hk || reflexivity).
  change (quote ++ escapeAttrib v ++ quote ++ r) with (34%N :: escapeAttrib v ++ 34%N :: r). cbn [N.eqb Pos.eqb andb is_q orb]. rewrite escape_esc.
  rewrite (read_value_bad v _ Hv). reflexivity.
Qed.
Lemma read_attrs_bad a t : forallb (fun kv : string * text => okname (fst kv)) a = true -> forallb (fun kv : string * text => forallb xml_char (snd kv)) a = false -> forall f,
  read_attrs f (flat_map attrText a ++ t) = None.
Proof.
  induction a as [|[k v] a IH]; [discriminate|]. cbn [forallb fst snd]. intros H B f. apply andb_prop in H as [Hk H]. destruct f as [|f]; [reflexivity|]. cbn [flat_map]. rewrite <- app_assoc.
  unfold attrText at 1. cbn [fst snd]. rewrite <- !app_assoc. change (lit " " ++ ?x) with (32%N :: x). cbn [read_attrs].
  change (is_ws 32) with true. cbn iota. destruct (okname_start k Hk) as (c & n & E & S). destruct (start_plain c S) as (W & A & B').
  assert (Sk : forall x, skip (32%N :: lit k ++ x) = lit k ++ x) by (intros x; cbn [skip]; change (is_ws 32) with true; cbn iota; rewrite E; cbn [app skip]; now rewrite W).
  rewrite Sk. assert (M : forall x, match lit k ++ x with [] => false | d :: _ => negb ((d =? 47) || (d =? 62))%N end = true) by (intros x; rewrite E; cbn [app]; now rewrite A, B').
  specialize (M (lit "=" ++ quote ++ escapeAttrib v ++ quote ++ flat_map attrText a ++ t)).
  destruct (forallb xml_char v) eqn:Hv; cbn [andb] in B.
  - pose proof (read_attr_at k v (flat_map attrText a ++ t) Hk Hv) as R. destruct (lit k ++ _) as [|d s]; [discriminate M|].
    destruct ((d =? 47) || (d =? 62))%N; [discriminate M|]. rewrite R, (IH H B f). reflexivity.
  - pose proof (read_attr_bad k v (flat_map attrText a ++ t) Hk Hv) as R. destruct (lit k ++ _) as [|d s]; [discriminate M|].
    destruct ((d =? 47) || (d =? 62))%N; [discriminate M|]. rewrite R. reflexivity.
Qed.
Lemma named_start e : named e = true -> exists c n, serialize e = 60%N :: c :: n /\ name_start c = true.
Proof.
  destruct e as [t a k]. cbn [named serialize]. intros H. apply andb_prop in H as [H _]. apply andb_prop in H as [H _]. apply andb_prop in H as [H _].
  destruct (okname_start t H) as (c & n & E & S). exists c. eexists. split; [|exact S]. rewrite E. cbn [app]. reflexivity.
Qed.
Lemma read_elem_bad e : named e = true -> chars e = false -> forall f r, need e <= f -> read_elem f (serialize e ++ r) = None.
Proof.
  induction e as [t a k IH] using elem_ind'. intros G B f r L. cbn [named chars] in G, B. apply andb_prop in G as [G Gk]. apply andb_prop in G as [G Gn]. apply andb_prop in G as [Gt Ga].
  destruct f as [|f]; [reflexivity|]. cbn [serialize]. rewrite <- !app_assoc.
  match goal with |- context [flat_map attrText a ++ ?b ++ r] => remember b as body eqn:Eb end.
  cbn [read_elem]. rewrite after_app.
  assert (Rn : read_name (lit t ++ flat_map attrText a ++ body ++ r) = Some (lit t, flat_map attrText a ++ body ++ r)).
  { assert (X : exists c q, flat_map attrText a ++ body ++ r = c :: q /\ name_char c = false).
    { destruct a as [|kv a]; [|exists 32%N; eexists; split; [reflexivity|reflexivity]]. cbn [flat_map app]. subst body. destruct k; cbn [app]; [exists 32%N|exists 62%N]; eexists; split; reflexivity. }
    destruct X as (c & q & E & C). rewrite E. apply read_name_at; assumption. }
  rewrite Rn. pose proof (attrs_length a) as La.
  destruct (forallb (fun kv : string * text => forallb xml_char (snd kv)) a) eqn:Ba; cbn [andb] in B; [|rewrite (read_attrs_bad a _ Ga Ba); reflexivity].
  assert (Ok : forallb okattr a = true) by (rewrite okattr_split, Ga, Ba; reflexivity).
  assert (Nd : nodupb (map fst (map attr_of a)) = true) by (rewrite map_map; exact Gn).
  destruct k as [|x k]; [discriminate B|].
  assert (Ra : read_attrs 1 (body ++ r) = Some ([], body ++ r)) by (subst body; reflexivity).
  rewrite (read_attrs_at a (body ++ r) (body ++ r) Ra Ok) by (rewrite !app_length; lia). rewrite Nd.
  assert (B1 : after (lit "/>") (body ++ r) = None) by (subst body; reflexivity). rewrite B1. subst body. rewrite <- !app_assoc, after_app.
  assert (K : forall k, Forall (fun e => named e = true -> chars e = false -> forall f r, need e <= f -> read_elem f (serialize e ++ r) = None) k -> forallb named k = true -> forallb chars k = false ->
    forall f r, kneed k <= f -> read_kids f (flat_map serialize k ++ r) = None).
  { clear. induction 1 as [|x k Hx _ IH]; intros G B f r L; [discriminate B|]. destruct f as [|f]; [reflexivity|]. cbn [flat_map read_kids].
    cbn [forallb] in G, B. apply andb_prop in G as [Gx G]. destruct (named_start x Gx) as (c & n & E & S). destruct (start_plain c S) as (W & A & _).
    rewrite <- app_assoc. assert (Sk : forall q, skip (serialize x ++ q) = serialize x ++ q) by (intros q; rewrite E; reflexivity). rewrite Sk.
    assert (Na : forall q, after (lit "</") (serialize x ++ q) = None) by (intros q; rewrite E; apply (after_other 60 47 c []); rewrite N.eqb_sym; exact A).
    rewrite Na. unfold kneed in L. cbn [fold_right] in L. destruct (chars x) eqn:Cx; cbn [andb] in B.
    - rewrite (read_elem_at x) by (rewrite ?good_split, ?Gx, ?Cx; reflexivity || lia). rewrite (IH G B f); [reflexivity|]. unfold kneed. lia.
    - rewrite (Hx Gx eq_refl f) by lia. reflexivity. }
  rewrite (K (x :: k) IH Gk B f); [reflexivity|]. cbn [need] in L. unfold kneed. lia.
Qed.
Lemma read_doc_bad_mac e : named e = true -> chars e = false -> read_doc (keylayoutDecl ++ serialize e) = None.
Proof.
  intros G B. unfold read_doc. assert (D : forall t, match read_decl (keylayoutDecl ++ t) with Some t => read_type (skip t) | None => None end = Some (nl ++ t)) by reflexivity.
  specialize (D (serialize e)). destruct (read_decl (keylayoutDecl ++ serialize e)) as [t|]; [|discriminate D]. rewrite D.
  destruct (named_start e G) as (c & n & E & Sc). assert (Sk : skip (nl ++ serialize e) = serialize e) by (rewrite E; reflexivity). rewrite Sk.
  pose proof (read_elem_bad e G B (S (List.length (nl ++ serialize e))) []) as R. rewrite app_nil_r in R. rewrite R; [reflexivity|]. pose proof (serialize_length e). rewrite app_length. lia.
Qed.
Lemma read_doc_bad_ask e : named e = true -> chars e = false -> read_doc (lit "<?xml version='1.0' encoding='utf-8'?>" ++ nl ++ serialize e) = None.
Proof.
  intros G B. unfold read_doc. assert (D : forall t, read_decl (lit "<?xml version='1.0' encoding='utf-8'?>" ++ t) = Some t) by reflexivity. rewrite D.
  destruct (named_start e G) as (c & n & E & Sc). assert (Sk : skip (nl ++ serialize e) = serialize e) by (rewrite E; reflexivity). rewrite Sk.
  assert (T : read_type (serialize e) = Some (serialize e)).
  { unfold read_type. rewrite E. change (lit "<!DOCTYPE ") with (60%N :: 33%N :: lit "DOCTYPE "). rewrite (after_other 60 33 c (lit "DOCTYPE ") n); [reflexivity|]. destruct (N.eqb_spec 33 c) as [<-|]; [discriminate Sc|reflexivity]. }
  rewrite T. assert (Sk' : skip (serialize e) = serialize e) by (rewrite E; reflexivity). rewrite Sk'.
  pose proof (read_elem_bad e G B (S (List.length (serialize e))) []) as R. rewrite app_nil_r in R. rewrite R; [reflexivity|]. pose proof (serialize_length e). lia.
Qed.
Lemma Forall2_nth_r {A B} (R : A -> B -> Prop) l l' n y : Forall2 R l l' -> nth_error l' n = Some y -> exists x, nth_error l n = Some x /\ R x y.
Proof. intros F. revert n. induction F as [|a b l l' H F IH]; intros [|n] E; cbn [nth_error] in *; try discriminate; [injection E as <-; eauto|auto]. Qed.
Definition coded (kb : kbd) (ls : list layer) : Prop :=
  forall l b c, In l ls -> In (b, c) (llayout l) -> exists k, In k (keys kb) /\ kb_name k = b /\ kb_macos k <> None.
Lemma macCodes_spec kb ls : kbd_ok kb -> ((exists cs, macCodes kb (layout_new ls) = Ok cs) <-> coded kb ls).
Proof.
  intros Hk. unfold macCodes, coded. rewrite layout_new_layers. split.
  - intros (cs & E) l b c I J. apply mapM_Ok_inv in E. apply In_nth_error in I as [i I]. destruct (Forall2_nth _ E I) as (c1 & _ & E1). apply mapM_Ok_inv in E1.
    apply In_nth_error in J as [j J]. destruct (Forall2_nth _ E1 J) as (n & _ & E2). cbn [fst] in E2. apply PropsRender.bind_inv in E2 as (k & B & E2). apply button_spec in B; [|exact Hk].
    destruct B as [B1 B2]. exists k. split; [exact B1|]. split; [exact B2|]. destruct (kb_macos k); [discriminate|]. cbn in E2. discriminate.
  - intros H. apply mapM_all. intros l Il. apply mapM_all. intros [b c] Ib. destruct (H l b c Il Ib) as (k & Ik & En & Em). cbn [fst].
    assert (B : button kb b = Ok k) by (apply button_spec; auto). rewrite B. cbn [bind]. destruct (kb_macos k) as [n|]; [|congruence]. exists n. reflexivity.
Qed.
