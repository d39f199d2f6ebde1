(** Proofs for C46 and C47. *)
From Verif Require Import Base TextModel FilterModel FilterSpec FilterProofs.
Open Scope string_scope.
Open Scope list_scope.
Set Implicit Arguments.
Unset Strict Implicit.

Section NodeInd.
  Variable P : node -> Prop.
  Hypothesis HE : forall name d cs, Forall P cs -> P (Elem name d cs).
  Hypothesis HV : forall name d, P (Void name d).
  Hypothesis HC : forall t, P (Chars t).
  Hypothesis HS : forall t, P (Spaces t).
  Hypothesis HM : forall t, P (Cmt t).
  Fixpoint node_ind' (n : node) : P n :=
    match n with
    | Elem name d cs =>
        HE name d ((fix all l : Forall P l := match l with [] => Forall_nil P | c :: l' => Forall_cons c (node_ind' c) (all l') end) cs)
    | Void name d => HV name d
    | Chars t => HC t
    | Spaces t => HS t
    | Cmt t => HM t
    end.
End NodeInd.

Lemma is_script_code name : is_script name = code_elem name.
Proof.
  unfold is_script, code_elem, mem. cbn [existsb]. destruct (eqb_spec name "script") as [E|N], (string_dec name "script"); try contradiction; try reflexivity.
  destruct (eqb_spec name "style"), (string_dec name "style"); try contradiction; reflexivity.
Qed.
Section Select.
  Variable f : string -> attrs -> bool.
  Lemma emit_elem ins name d cs : emit f ins (Elem name d cs) =
    if code_elem name then ([], ins) else
    let ins' := ins || f name d in let r := emit_all f ins' cs in
    (if ins' then StartTag name d :: fst r ++ (if snd r then [EndTag name] else []) else fst r, negb (f name d) && snd r).
  Proof.
    cbn [emit]. destruct (code_elem name); [reflexivity|].
    assert (E : forall l b, (fix all b0 l0 := match l0 with
       | [] => ([], b0)
       | c :: l' => let '(ts, b1) := emit f b0 c in let '(ts', b2) := all b1 l' in (ts ++ ts', b2)
       end) b l = emit_all f b l).
    { induction l as [|c l IH]; intros b; [reflexivity|]. cbn [emit_all]. destruct (emit f b c). rewrite IH. reflexivity. }
    rewrite E. reflexivity.
  Qed.
  Lemma emit_all_cons ins c l : emit_all f ins (c :: l) =
    (fst (emit f ins c) ++ fst (emit_all f (snd (emit f ins c)) l), snd (emit_all f (snd (emit f ins c)) l)).
  Proof. cbn [emit_all]. destruct (emit f ins c) as [ts b]. cbn [fst snd]. destruct (emit_all f b l). reflexivity. Qed.

  Definition elements_only_none (cs : list node) : Prop := Forall (fun c => match c with Elem _ _ _ => False | _ => True end) cs.
  Definition all_flat := (fix all l := match l with [] => True | c :: l' => flat_scripts f c /\ all l' end).
  Lemma all_flat_Forall cs : all_flat cs <-> Forall (flat_scripts f) cs.
  Proof. induction cs as [|c cs IH]; cbn; [split; auto|]. rewrite IH, Forall_cons_iff. reflexivity. Qed.
  Definition all_unnested := (fix all l := match l with [] => True | c :: l' => unnested f c /\ all l' end).
  Lemma all_unnested_Forall cs : all_unnested cs <-> Forall (unnested f) cs.
  Proof. induction cs as [|c cs IH]; cbn; [split; auto|]. rewrite IH, Forall_cons_iff. reflexivity. Qed.

  (** Inside a script nothing is yielded. *)
  Lemma select_script inside cs : elements_only_none cs -> forall rest,
    select f (inside, Some 0%Z) (flat_map toks cs ++ rest) = select f (inside, Some 0%Z) rest.
  Proof.
    induction 1 as [|c cs Hc F IH]; intros rest; [reflexivity|]. cbn [flat_map]. rewrite <- app_assoc.
    destruct c; [contradiction| | | |]; cbn [toks app select select_step]; apply IH.
  Qed.
  Definition st (ins : option Z) : sstate := (ins, None).
  (** The state after a node *)
  Definition after (k : option Z) (b : bool) : option Z := if b then k else None.
  Definition live (k : option Z) : bool := match k with Some _ => true | None => false end.
  Definition good (k : option Z) : Prop := match k with Some z => (1 <= z)%Z | None => True end.
  Definition node_ok (n : node) : Prop := flat_scripts f n -> forall k rest, good k ->
    select f (st k) (toks n ++ rest) =
    fst (emit f (live k) n) ++ select f (st (after k (snd (emit f (live k) n)))) rest.
  Lemma snd_emit_live n : snd (emit f false n) = false.
  Proof.
    induction n as [name d cs IH| | | |] using node_ind'; try reflexivity.
    rewrite emit_elem. destruct (code_elem name); [reflexivity|]. cbn [orb].
    destruct (f name d) eqn:E; [reflexivity|]. cbn [negb andb snd].
    induction IH as [|c cs Hc F IHl]; [reflexivity|]. rewrite emit_all_cons, Hc. exact IHl.
  Qed.
  Lemma snd_emit_all_live cs : snd (emit_all f false cs) = false.
  Proof. induction cs as [|c cs IH]; [reflexivity|]. rewrite emit_all_cons, snd_emit_live. exact IH. Qed.
  Lemma nodes_ok cs : Forall node_ok cs -> Forall (flat_scripts f) cs -> forall k rest, good k ->
    select f (st k) (flat_map toks cs ++ rest) =
    fst (emit_all f (live k) cs) ++ select f (st (after k (snd (emit_all f (live k) cs)))) rest.
  Proof.
    induction 1 as [|c cs Hc F IH]; intros Fl k rest G.
    - cbn. destruct k; reflexivity.
    - apply Forall_cons_iff in Fl as [Fc Fl]. cbn [flat_map]. rewrite <- app_assoc, (Hc Fc k _ G), emit_all_cons. cbn [fst snd].
      destruct (emit f (live k) c) as [ts b] eqn:E. cbn [fst snd].
      rewrite (IH Fl (after k b)) by (destruct b; [exact G|exact I]).
      assert (El : live (after k b) = b).
      { destruct b; [|reflexivity]. destruct k; [reflexivity|]. cbn [live] in E. pose proof (snd_emit_live c) as S. rewrite E in S. discriminate. }
      rewrite El, app_assoc. f_equal. f_equal. destruct b; [reflexivity|]. unfold after at 2. cbn.
      rewrite snd_emit_all_live. reflexivity.
  Qed.
  Lemma all_node_ok n : node_ok n.
  Proof.
    induction n as [name d cs IH| | | |] using node_ind'.
    2-5: intros _ [z|] rest G; [|reflexivity]; cbn in G; unfold st; cbn [toks app select select_step emit live after fst snd];
      (assert (E : (z <=? 0)%Z = false) by lia); rewrite E; reflexivity.
    intros Fl k rest G. cbn [flat_scripts] in Fl. fold all_flat in Fl. destruct Fl as [Fs Fl]. apply all_flat_Forall in Fl.
    rewrite emit_elem. cbn [toks app]. rewrite <- app_assoc. cbn [select select_step st]. rewrite is_script_code.
    destruct (code_elem name) eqn:Es.
    - destruct (Fs eq_refl) as [Ef Fn]. rewrite Ef. cbn [fst snd app]. rewrite (select_script k Fn).
      cbn [app select select_step]. destruct k; reflexivity.
    - cbn [fst snd]. destruct (f name d) eqn:Ef.
      + rewrite orb_true_r. cbn [orb negb andb]. change (0 + 1 <=? 0)%Z with false. change (0 + 1)%Z with 1%Z. cbv iota.
        rewrite (nodes_ok IH Fl (k:=Some 1%Z)) by (cbn; lia). cbn [live after app]. f_equal. rewrite <- app_assoc. f_equal.
        destruct (snd (emit_all f true cs)); cbn [after app select select_step st]; reflexivity.
      + rewrite orb_false_r. cbn [negb andb]. destruct k as [z|]; cbn [live].
        * cbn in G. assert (E : (z + 1 <=? 0)%Z = false) by lia. rewrite E. cbv iota.
          rewrite (nodes_ok IH Fl (k:=Some (z + 1)%Z)) by (cbn; lia). cbn [live after app]. f_equal. rewrite <- app_assoc. f_equal.
          destruct (snd (emit_all f true cs)); cbn [after app select select_step st]; [|reflexivity].
          replace (z + 1 - 1)%Z with z by lia. assert (E2 : (z <=? 0)%Z = false) by lia. rewrite E2. reflexivity.
        * rewrite (nodes_ok IH Fl (k:=None) _ I). cbn [live]. rewrite snd_emit_all_live. reflexivity.
  Qed.
  Lemma select_exact doc : Forall (flat_scripts f) doc ->
    select f (None, None) (flat_map toks doc) = fst (emit_all f false doc).
  Proof.
    intros Fl. pose proof (@nodes_ok doc) as H. specialize (H (proj2 (Forall_forall node_ok doc) (fun n _ => @all_node_ok n)) Fl None [] I).
    rewrite app_nil_r in H. unfold st in H. rewrite H. rewrite snd_emit_all_live. apply app_nil_r.
  Qed.
  (** Without nested selected elements: the selected subtrees *)
  Lemma clean_emit n : chosen_in f n = false -> emit f true n = (flat_map toks (clean n), true).
  Proof.
    induction n as [name d cs IH| | | |] using node_ind'; intros H; try reflexivity.
    cbn [chosen_in] in H. apply orb_false_iff in H as [Ef H]. rewrite emit_elem. cbn [clean]. destruct (code_elem name); [reflexivity|].
    rewrite Ef. cbn [orb negb andb flat_map toks].
    assert (E : emit_all f true cs = (flat_map toks (flat_map clean cs), true)).
    { clear -IH H. induction IH as [|c cs Hc F IHl]; [reflexivity|]. cbn [existsb] in H. apply orb_false_iff in H as [H1 H2].
      rewrite emit_all_cons, (Hc H1). cbn [fst snd flat_map]. rewrite (IHl H2), flat_map_app. reflexivity. }
    rewrite E. cbn [fst snd]. rewrite app_nil_r. reflexivity.
  Qed.
  Lemma clean_emit_all cs : existsb (chosen_in f) cs = false -> emit_all f true cs = (flat_map toks (flat_map clean cs), true).
  Proof.
    induction cs as [|c cs IH]; [reflexivity|]. cbn [existsb]. intros H. apply orb_false_iff in H as [H1 H2].
    rewrite emit_all_cons, (clean_emit H1). cbn [fst snd flat_map]. rewrite (IH H2), flat_map_app. reflexivity.
  Qed.
  Lemma wanted_emit n : flat_scripts f n -> unnested f n -> fst (emit f false n) = flat_map toks (wanted f n).
  Proof.
    induction n as [name d cs IH| | | |] using node_ind'; intros Fl Un; try reflexivity.
    cbn [flat_scripts] in Fl. fold all_flat in Fl. destruct Fl as [Fs Fl]. apply all_flat_Forall in Fl.
    cbn [unnested] in Un. fold all_unnested in Un. destruct Un as [Us Un]. apply all_unnested_Forall in Un.
    rewrite emit_elem. cbn [wanted]. destruct (code_elem name) eqn:Es.
    - destruct (Fs eq_refl) as [Ef _]. rewrite Ef. reflexivity.
    - cbn [orb]. destruct (f name d) eqn:Ef; cbn [fst snd].
      + rewrite (clean_emit_all (Us eq_refl)). cbn [fst snd clean]. rewrite Es. cbn [flat_map toks]. rewrite app_nil_r. reflexivity.
      + clear -IH Fl Un. induction IH as [|c cs Hc F IHl]; [reflexivity|].
        apply Forall_cons_iff in Fl as [F1 F2]. apply Forall_cons_iff in Un as [U1 U2].
        rewrite emit_all_cons, snd_emit_live. cbn [fst flat_map]. rewrite (Hc F1 U1), (IHl F2 U2), flat_map_app. reflexivity.
  Qed.
  Lemma select_wanted doc : Forall (flat_scripts f) doc -> Forall (unnested f) doc ->
    select f (None, None) (flat_map toks doc) = flat_map toks (flat_map (wanted f) doc).
  Proof.
    intros Fl Un. rewrite (select_exact Fl). induction doc as [|n doc IH]; [reflexivity|].
    apply Forall_cons_iff in Fl as [F1 F2]. apply Forall_cons_iff in Un as [U1 U2].
    rewrite emit_all_cons, snd_emit_live. cbn [fst flat_map]. rewrite (wanted_emit F1 U1), (IH F2 U2), flat_map_app. reflexivity.
  Qed.
  (** Whatever the tokens are: it only drops tokens. *)
  Inductive sublist {A} : list A -> list A -> Prop :=
    | sub_nil : sublist [] []
    | sub_keep x l m : sublist l m -> sublist (x :: l) (x :: m)
    | sub_drop x l m : sublist l m -> sublist l (x :: m).
  Lemma select_sub ts : forall s, sublist (select f s ts) ts.
  Proof.
    induction ts as [|t ts IH]; intros s; cbn [select]; [constructor|]. destruct (select_step f s t) as [s' []]; constructor; apply IH.
  Qed.
End Select.

Section Serialize.
  Variable entities : text -> option text.
  Lemma serialize_app ts us : serialize entities ts = (fst (serialize entities ts), None) ->
    serialize entities (ts ++ us) = (fst (serialize entities ts) ++ fst (serialize entities us), snd (serialize entities us)).
  Proof. unfold serialize. intros H. rewrite gchain_app, H at 1. cbn [fst]. reflexivity. Qed.
  Definition gives (ts : list token) (t : text) : Prop :=
    exists ys, serialize entities ts = (ys, None) /\ concat ys = t.
  Lemma gives_app ts us t u : gives ts t -> gives us u -> gives (ts ++ us) (t ++ u).
  Proof.
    intros (ys & E & <-) (zs & E' & <-). exists (ys ++ zs). rewrite serialize_app by (rewrite E; reflexivity).
    rewrite E, E', concat_app. split; reflexivity.
  Qed.
  Lemma gives_toks n : gives (toks n) (prose n).
  Proof.
    induction n as [name d cs IH|name d|t|t|t] using node_ind'.
    - cbn [toks prose]. change (StartTag name d :: flat_map toks cs ++ [EndTag name]) with ([StartTag name d] ++ flat_map toks cs ++ [EndTag name]).
      change (gives ([StartTag name d] ++ flat_map toks cs ++ [EndTag name]) ([] ++ flat_map prose cs ++ (if eqb name "p" || eqb name "div" then [LF; LF] else []))).
      apply gives_app; [exists []; split; reflexivity|]. apply gives_app.
      + induction IH as [|c cs Hc F IHl]; [exists []; split; reflexivity|]. cbn [flat_map]. apply gives_app; assumption.
      + unfold gives, serialize. cbn [gchain serialize1]. unfold mem. cbn [existsb].
        rewrite orb_false_r. destruct (eqb name "p"), (eqb name "div"); cbn [orb]; eexists; split; reflexivity.
    - exists []. split; reflexivity.
    - exists [t]. split; [reflexivity|apply app_nil_r].
    - exists [[32%N]]. split; reflexivity.
    - exists []. split; reflexivity.
  Qed.
  Lemma gives_doc doc : gives (flat_map toks doc) (flat_map prose doc).
  Proof.
    induction doc as [|n doc IH]; [exists []; split; reflexivity|]. cbn [flat_map]. apply gives_app; [apply gives_toks|exact IH].
  Qed.
  (** A token serialize cannot handle *)
  Lemma serialize_bad doc t ts : snd (serialize1 entities t) <> None ->
    serialize entities (flat_map toks doc ++ t :: ts) =
      (fst (serialize entities (flat_map toks doc)), snd (serialize1 entities t)).
  Proof.
    intros H. destruct (gives_doc doc) as (ys & E & _). rewrite serialize_app by (rewrite E; reflexivity). rewrite E.
    unfold serialize. cbn [gchain fst]. destruct t; try (exfalso; apply H; reflexivity); cbn [serialize1] in *.
    - destruct (entities name); [exfalso; apply H; reflexivity|]. cbn. rewrite app_nil_r. reflexivity.
    - cbn. rewrite app_nil_r. reflexivity.
  Qed.
End Serialize.
