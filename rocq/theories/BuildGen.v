(** The statements of gen.sh meet the conditions of BuildProofs. *)
From Verif Require Import Base CurveModel BuildModel BuildProofs.
From Coq Require Import Lia Permutation.
Open Scope string_scope.
Open Scope list_scope.
Unset Implicit Arguments.

(** Files of lulua/data/winkbd the driver and its archive are made of *)
Definition winkbd_wanted : list string :=
  ["build.ninja"; "keyboard.def"; "keyboard.rc"; "linker.ld"; "README.txt"; "lulua.reg"; "install.bat"].
Definition winkbd_made : list string := ["keyboard.c"; "System32/kbdarlulua.dll"; "SysWOW64/kbdarlulua.dll"].
Definition in_corpus (p : string) : Prop := prefixed "corpus/" p = true.
Record ok_inputs (corpora winkbd : list string) (fd : found) : Prop := mkOk {
  ok_corpora : NoDup corpora;
  ok_known : incl corpora all_corpora;
  ok_winkbd : NoDup winkbd;
  ok_wanted : incl winkbd_wanted winkbd;
  ok_made : forall f, In f winkbd -> ~ In f winkbd_made;
  ok_found : forall c r fs, In (c, (r, fs)) (corpus_rules fd) -> fs <> [] /\ forall p, In p fs -> in_corpus p }.

Definition rank (s : stmt) : nat :=
  let r := rule s in
  if mem r ["mkdir"; "configure-make"; "phony"] then 0
  else if prefixed "write-" r then 1
  else if mem r ["render-svg"; "render-svg-print"; "render-klavaro"; "render-winkbd"; "render-xmodmap"] then 1
  else if String.eqb r "cp" then (if existsb (prefixed "_build/") (ins s) then 3 else 1)
  else if mem r ["combine"; "svg2pdf"; "ninjaC"] then 2
  else if mem r ["letterfreq"; "wordlist"; "analyze-heat"; "analyze-triadeffortdata"; "analyze-layoutstats"; "analyze-corpusstats"] then 3
  else if mem r ["gz"; "zipR"; "render-svg-heat"; "analyze-triadeffortplot"] then 4
  else 5.

(** * A concrete graph with the same statements *)
Definition fd0 : found := mkFound [] [] [] [] [].
Definition g0 : list stmt := gen_sh all_corpora [] fd0.
Definition winkbd_prefix : string := "_build/_temp/winkbd/".
(** [s] is like [s0]: same outputs, and inputs that are outputs *)
Record like (winkbd : list string) (s s0 : stmt) : Prop := mkLike {
  l_outs : outs s = outs s0;
  l_rank : rank s = rank s0;
  l_rule : rule s = rule s0;
  l_layout : layout_of s = layout_of s0;
  l_ins : forall p, In p (ins s) -> In p (ins s0) \/ in_corpus p;
  l_needs : forall p, In p (needs s) -> In p (needs s0) \/ in_corpus p \/ (rank s = 2 /\ exists f, In f winkbd /\ p = tempdir ("/winkbd/" ++ f)) }.
Lemma like_refl w s : like w s s.
Proof. constructor; auto. Qed.
Lemma like_gen corpora winkbd fd s : ok_inputs corpora winkbd fd -> In s (gen_sh corpora winkbd fd) ->
  (exists f, In f winkbd /\ s = winkbd_stmt f) \/ (exists s0, In s0 g0 /\ like winkbd s s0).
Proof.
  intros O I. unfold gen_sh in I. rewrite !in_app_iff in I.
  assert (G : forall x, In x (fixed_stmts ++ driver_stmts [] ++ flat_map (layout_stmts fd0) gen_layouts ++ map xmodmap_stmt layoutsXmodmap ++ map corpus_stmt all_corpora ++ report_stmts all_corpora) -> In x g0).
  { intros x H. unfold g0, gen_sh. rewrite !in_app_iff in *. tauto. }
  assert (Same : forall x, In x g0 -> exists s0, In s0 g0 /\ like winkbd x s0) by (intros x H; exists x; split; [exact H|apply like_refl]).
  destruct I as [I|[I|[I|[I|[I|[I|I]]]]]].
  - right. apply Same, G. rewrite !in_app_iff. tauto.
  - left. apply in_map_iff in I as (f & <- & I). eauto.
  - right. unfold driver_stmts in I. apply in_app_iff in I as [I|I].
    + destruct I as [<-|[<-|[<-|[]]]].
      * apply Same, G. rewrite !in_app_iff. right; left. left. reflexivity.
      * apply Same, G. rewrite !in_app_iff. right; left. right. left. reflexivity.
      * eexists. split; [apply G; rewrite !in_app_iff; right; left; right; right; left; reflexivity|].
        constructor; [reflexivity..|cbn [ins]; auto|]. cbn [needs ins imps ords w64infiles map app]. intros p Ip. rewrite app_nil_r in Ip.
        unfold w64infiles in Ip. apply in_app_iff in Ip as [Ip|Ip]; [|left; exact Ip]. right. right. split; [reflexivity|].
        apply in_map_iff in Ip as (f & <- & If). eauto.
    + apply Same, G. rewrite !in_app_iff. right; left. unfold driver_stmts. apply in_app_iff. right. exact I.
  - right. apply in_flat_map in I as (l & Il & I). unfold layout_stmts in I.
    assert (GL : forall x, In x (layout_stmts fd0 l) -> In x g0).
    { intros x H. apply G. rewrite !in_app_iff. right; right; left. apply in_flat_map. eauto. }
    destruct I as [<-|I]; [apply Same, GL; left; reflexivity|]. apply in_app_iff in I as [I|I].
    + apply in_map_iff in I as ((c & r & fs) & <- & I).
      assert (X : exists fs0, In (c, (r, fs0)) (corpus_rules fd0)).
      { unfold corpus_rules in I. repeat (destruct I as [I|I]; [injection I as <- <- _; eexists; unfold corpus_rules; cbn [In]; tauto|]). destruct I. }
      destruct X as (fs0 & X). exists (write_stmt l (c, (r, fs0))). split.
      * apply GL. right. apply in_app_iff. left. apply in_map, X.
      * destruct (ok_found _ _ _ O c r fs I) as [_ C]. constructor; [reflexivity| |reflexivity|reflexivity|cbn [write_stmt ins fst snd]; auto|].
        -- assert (W : prefixed "write-" r = true) by (unfold corpus_rules in I; repeat (destruct I as [I|I]; [injection I as _ <- _; reflexivity|]); destruct I).
           unfold rank. cbn [write_stmt rule fst snd]. rewrite W. reflexivity.
        -- cbn [needs write_stmt ins imps ords fst snd app]. intros p Ip. apply in_app_iff in Ip as [Ip|Ip]; [right; left; apply C, Ip|].
           left. apply in_app_iff. right. exact Ip.
    + apply Same, GL. right. apply in_app_iff. right. exact I.
  - right. apply Same, G. rewrite !in_app_iff. tauto.
  - right. apply in_map_iff in I as (c & <- & Ic). apply Same, G. rewrite !in_app_iff. do 4 right. left. apply in_map. apply (ok_known _ _ _ O), Ic.
  - right. unfold report_stmts in I. destruct I as [<-|[<-|[<-|[]]]].
    + apply Same, G. rewrite !in_app_iff. do 5 right. left. reflexivity.
    + apply Same, G. rewrite !in_app_iff. do 5 right. right. left. reflexivity.
    + eexists. split; [apply G; rewrite !in_app_iff; do 5 right; right; right; left; reflexivity|].
      constructor; [reflexivity..|cbn [ins]; auto|]. cbn [needs ins imps ords app]. intros p [Ip|[Ip|Ip]]; [left; left; exact Ip|left; right; left; exact Ip|].
      left. right. right. apply in_app_iff in Ip as [Ip|Ip]; apply in_app_iff; [left|right; exact Ip].
      apply in_map_iff in Ip as (c & <- & Ic). apply in_map. apply (ok_known _ _ _ O), Ic.
Qed.

(** * Checks of the concrete graph *)
Definition table0 : list (nat * list string) := map (fun s => (rank s, outs s)) g0.
Definition outlike (p : string) : bool := prefixed "_build/" p || String.eqb p osmconvert || String.eqb p "always".
Lemma check_ranked : forallb (fun s => let r := rank s in forallb (fun p => forallb (fun t => Nat.ltb (fst t) r || negb (mem p (snd t))) table0) (needs s)) g0 = true.
Proof. vm_compute. reflexivity. Qed.
Lemma check_winkbd : forallb (fun s => let r := rank s in forallb (fun p => negb (prefixed winkbd_prefix p) || Nat.ltb 1 r) (needs s)) g0 = true.
Proof. vm_compute. reflexivity. Qed.
Lemma check_outs : forallb outlike (flat_map outs g0) = true.
Proof. vm_compute. reflexivity. Qed.
Lemma check_once : nodupb (flat_map outs g0) = true.
Proof. vm_compute. reflexivity. Qed.
Lemma check_made : forallb (fun p => negb (prefixed winkbd_prefix p) || mem p (map (fun f => tempdir ("/winkbd/" ++ f)) winkbd_made)) (flat_map outs g0) = true.
Proof. vm_compute. reflexivity. Qed.
Lemma check_dir : forallb (fun s => let r := rank s in Nat.ltb r 1 || negb (mem (tempdir "/winkbd") (outs s))) g0 = true.
Proof. vm_compute. reflexivity. Qed.
Lemma check_zip : forallb (fun p => negb (prefixed (tempdir "/ar-lulua-w64" ++ "/")%string p) || mem p (map (fun f => tempdir ("/ar-lulua-w64/" ++ f)) w64zipfile)) (flat_map outs g0) = true.
Proof. vm_compute. reflexivity. Qed.

(** * Every statement *)
Lemma winkbd_path f : tempdir ("/winkbd/" ++ f) = (winkbd_prefix ++ f)%string.
Proof. reflexivity. Qed.
Lemma prefix_app p f : prefixed p (p ++ f) = true.
Proof. unfold prefixed. induction p as [|a p IH]; [destruct f; reflexivity|]. cbn [String.append String.prefix]. destruct (Ascii.ascii_dec a a) as [_|N]; [exact IH|destruct (N eq_refl)]. Qed.
Lemma append_inj p a b : (p ++ a)%string = (p ++ b)%string -> a = b.
Proof. induction p as [|x p IH]; cbn [String.append]; intros E; [exact E|]. injection E as E. auto. Qed.
Lemma append_inj_r s : forall a b, (a ++ s)%string = (b ++ s)%string -> a = b.
Proof.
  assert (L : forall x y, String.length (x ++ y) = String.length x + String.length y) by (induction x as [|c x IH]; intros y; cbn; [reflexivity|rewrite IH; reflexivity]).
  induction a as [|x a IH]; intros [|y b] E.
  - reflexivity.
  - exfalso. apply (f_equal String.length) in E. rewrite !L in E. cbn [String.length] in E. lia.
  - exfalso. apply (f_equal String.length) in E. rewrite !L in E. cbn [String.length] in E. lia.
  - cbn [String.append] in E. injection E as <- E. f_equal. apply IH, E.
Qed.
Lemma NoDup_app3 {A} (a b : list A) : NoDup a -> NoDup b -> (forall x, In x a -> ~ In x b) -> NoDup (a ++ b).
Proof.
  intros Na Nb D. induction a as [|x a IH]; [exact Nb|]. inversion Na as [|? ? N1 N2]; subst. cbn [app]. constructor.
  - rewrite in_app_iff. intros [K|K]; [auto|]. exact (D x (or_introl eq_refl) K).
  - apply IH; [exact N2|]. intros y Iy. apply D. right. exact Iy.
Qed.
Lemma NoDup_app_l {A} (a b : list A) : NoDup (a ++ b) -> NoDup a.
Proof. induction a as [|x a IH]; cbn [app]; intros N; [constructor|]. inversion N as [|? ? N1 N2]; subst. constructor; [|auto]. intros I. apply N1, in_app_iff. auto. Qed.
Lemma NoDup_app_r {A} (a b : list A) : NoDup (a ++ b) -> NoDup b.
Proof. induction a as [|x a IH]; cbn [app]; intros N; [exact N|]. inversion N; auto. Qed.
Lemma NoDup_app_disj {A} (a b : list A) x : NoDup (a ++ b) -> In x a -> In x b -> False.
Proof. induction a as [|y a IH]; cbn [app]; intros N Ia Ib; [destruct Ia|]. inversion N as [|? ? N1 N2]; subst. destruct Ia as [<-|Ia]; [apply N1, in_app_iff; auto|auto]. Qed.
(** Outputs that do not depend on the arguments *)
Definition outs_rest : list string :=
  flat_map outs fixed_stmts ++ flat_map outs (driver_stmts []) ++ flat_map outs (flat_map (layout_stmts fd0) gen_layouts) ++
  flat_map outs (map xmodmap_stmt layoutsXmodmap) ++ flat_map outs (report_stmts []).
Lemma outs_corpus corpora : flat_map outs (map corpus_stmt corpora) = map metafile corpora.
Proof. induction corpora as [|c l IH]; [reflexivity|]. cbn [map flat_map]. rewrite IH. reflexivity. Qed.
Lemma outs_layouts fd ls : flat_map outs (flat_map (layout_stmts fd) ls) = flat_map outs (flat_map (layout_stmts fd0) ls).
Proof. induction ls as [|l ls IH]; [reflexivity|]. cbn [flat_map]. rewrite !flat_map_app, IH. f_equal. Qed.
Lemma outs_winkbd w : flat_map outs (map winkbd_stmt w) = map (fun f => tempdir ("/winkbd/" ++ f)) w.
Proof. induction w as [|f w IH]; [reflexivity|]. cbn [map flat_map]. rewrite IH. reflexivity. Qed.
Lemma outs_gen corpora winkbd fd :
  Permutation (flat_map outs (gen_sh corpora winkbd fd)) (map (fun f => tempdir ("/winkbd/" ++ f)) winkbd ++ map metafile corpora ++ outs_rest).
Proof.
  unfold gen_sh, outs_rest. rewrite !flat_map_app, outs_winkbd, outs_corpus, outs_layouts.
  change (flat_map outs (driver_stmts winkbd)) with (flat_map outs (driver_stmts [])). change (flat_map outs (report_stmts corpora)) with (flat_map outs (report_stmts [])).
  generalize (flat_map outs fixed_stmts) (flat_map outs (driver_stmts [])) (flat_map outs (flat_map (layout_stmts fd0) gen_layouts))
    (flat_map outs (map xmodmap_stmt layoutsXmodmap)) (flat_map outs (report_stmts [])) (map (fun f => tempdir ("/winkbd/" ++ f)) winkbd) (map metafile corpora).
  intros A B C D E W M. rewrite (Permutation_app_swap_app A W). apply Permutation_app_head.
  pose proof (Permutation_app_swap_app (A ++ B ++ C ++ D) M E) as P. rewrite <- !app_assoc in P. exact P.
Qed.
Lemma outs_gen_In corpora winkbd fd p : In p (flat_map outs (gen_sh corpora winkbd fd)) <->
  (exists f, In f winkbd /\ p = tempdir ("/winkbd/" ++ f)) \/ (exists c, In c corpora /\ p = metafile c) \/ In p outs_rest.
Proof.
  split.
  - intros I. apply (Permutation_in _ (outs_gen corpora winkbd fd)) in I. rewrite !in_app_iff, !in_map_iff in I.
    destruct I as [(f & E & I)|[(c & E & I)|I]]; [left; eauto|right; left; eauto|auto].
  - intros I. apply (Permutation_in _ (Permutation_sym (outs_gen corpora winkbd fd))). rewrite !in_app_iff, !in_map_iff.
    destruct I as [(f & I & E)|[(c & I & E)|I]]; [left; eauto|right; left; eauto|auto].
Qed.
Lemma built_outs g p : built g p <-> In p (flat_map outs g).
Proof. unfold built. rewrite in_flat_map. reflexivity. Qed.
Lemma outs_in_g0 corpora winkbd fd p : incl corpora all_corpora -> In p (flat_map outs (gen_sh corpora winkbd fd)) ->
  (exists f, In f winkbd /\ p = tempdir ("/winkbd/" ++ f)) \/ In p (flat_map outs g0).
Proof.
  intros K I. apply outs_gen_In in I as [I|[(c & I & E)|I]]; [left; exact I| |]; right; apply outs_gen_In; right; [left|right; exact I].
  exists c. split; [apply K, I|exact E].
Qed.
Lemma gen_once corpora winkbd fd : ok_inputs corpora winkbd fd -> NoDup (flat_map outs (gen_sh corpora winkbd fd)).
Proof.
  intros O. apply (Permutation_NoDup (Permutation_sym (outs_gen corpora winkbd fd))).
  pose proof check_once as C. apply nodupb_NoDup in C. apply (Permutation_NoDup (outs_gen all_corpora [] fd0)) in C. apply (NoDup_app_r []) in C.
  apply NoDup_app3; [|apply NoDup_app3|].
  - apply FinFun.Injective_map_NoDup; [|apply O]. intros a b E. rewrite !winkbd_path in E. exact (append_inj _ _ _ E).
  - apply FinFun.Injective_map_NoDup; [|apply O]. intros a b E. unfold metafile, tempdir in E. apply append_inj in E. apply append_inj in E. exact (append_inj_r _ _ _ E).
  - exact (NoDup_app_r _ _ C).
  - intros p Ip. apply in_map_iff in Ip as (c & <- & Ic). intros K. eapply NoDup_app_disj; [exact C| |exact K].
    apply in_map. apply (ok_known _ _ _ O), Ic.
  - intros p Ip K. apply in_map_iff in Ip as (f & <- & If).
    assert (K0 : In (tempdir ("/winkbd/" ++ f)) (flat_map outs g0)).
    { apply outs_gen_In. right. apply in_app_iff in K as [K|K]; [left|right; exact K]. apply in_map_iff in K as (c & E & Ic). exists c. split; [apply (ok_known _ _ _ O), Ic|auto]. }
    pose proof (proj1 (forallb_forall _ _) check_made _ K0) as M. cbn beta in M. rewrite winkbd_path, prefix_app in M. apply mem_In in M.
    apply in_map_iff in M as (f' & E & M). rewrite winkbd_path in E. apply append_inj in E. subst f'. exact (ok_made _ _ _ O f If M).
Qed.
Lemma outlike_ok corpora winkbd fd p : incl corpora all_corpora -> built (gen_sh corpora winkbd fd) p -> outlike p = true.
Proof.
  intros K B. apply built_outs, outs_in_g0 in B; [|exact K]. destruct B as [(f & _ & ->)|B]; [|exact (proj1 (forallb_forall _ _) check_outs p B)].
  unfold outlike. change (tempdir ("/winkbd/" ++ f)) with ("_build/" ++ ("_temp/winkbd/" ++ f))%string. rewrite prefix_app. reflexivity.
Qed.
Lemma corpus_outlike p : in_corpus p -> outlike p = false.
Proof.
  unfold in_corpus, outlike, prefixed. destruct p as [|a p]; [intros E; discriminate E|]. cbn [String.prefix]. destruct (Ascii.ascii_dec "c" a) as [<-|]; [|intros E; discriminate E].
  intros _. reflexivity.
Qed.
Lemma gen_ranked corpora winkbd fd : ok_inputs corpora winkbd fd ->
  forall s p t, In s (gen_sh corpora winkbd fd) -> In p (needs s) -> In t (gen_sh corpora winkbd fd) -> In p (outs t) -> rank t < rank s.
Proof.
  intros O s p t Is Ip It Op.
  assert (OL : outlike p = true) by (apply (outlike_ok corpora winkbd fd); [apply O|exists t; auto]).
  destruct (like_gen _ _ _ t O It) as [(f & If & ->)|(t0 & It0 & Lt)]; destruct (like_gen _ _ _ s O Is) as [(f' & If' & ->)|(s0 & Is0 & Ls)].
  - cbn [outs winkbd_stmt after] in Op. destruct Op as [<-|[]]. destruct Ip as [E|[E|[]]]; [discriminate E|].
    exfalso. change (tempdir "/winkbd") with ("_build/_temp/winkbd" ++ "")%string in E. rewrite winkbd_path in E.
    change (winkbd_prefix ++ f)%string with ("_build/_temp/winkbd" ++ ("/" ++ f))%string in E. apply append_inj in E. discriminate E.
  - change (rank (winkbd_stmt f)) with 1. destruct Op as [<-|[]]. destruct (l_needs _ _ _ Ls _ Ip) as [K|[K|(-> & _)]]; [| |lia].
    + rewrite (l_rank _ _ _ Ls). pose proof (proj1 (forallb_forall _ _) check_winkbd s0 Is0) as C. cbv beta zeta in C.
      pose proof (proj1 (forallb_forall _ _) C _ K) as C'. cbv beta in C'. rewrite winkbd_path, prefix_app in C'. cbn [negb orb] in C'. apply Nat.ltb_lt in C'. exact C'.
    + apply corpus_outlike in K. rewrite K in OL. discriminate OL.
  - change (rank (winkbd_stmt f')) with 1. rewrite (l_rank _ _ _ Lt). rewrite (l_outs _ _ _ Lt) in Op. destruct Ip as [<-|[<-|[]]]; [discriminate OL|].
    pose proof (proj1 (forallb_forall _ _) check_dir t0 It0) as C. cbv beta zeta in C. rewrite (proj2 (mem_In _ _) Op), orb_false_r in C. apply Nat.ltb_lt in C. exact C.
  - rewrite (l_rank _ _ _ Ls), (l_rank _ _ _ Lt). rewrite (l_outs _ _ _ Lt) in Op. destruct (l_needs _ _ _ Ls _ Ip) as [K|[K|(_ & f & If & ->)]].
    + pose proof (proj1 (forallb_forall _ _) check_ranked s0 Is0) as C. cbv beta zeta in C. pose proof (proj1 (forallb_forall _ _) C _ K) as C'.
      pose proof (proj1 (forallb_forall _ _) C' (rank t0, outs t0)) as C2. cbn [fst snd] in C2. rewrite (proj2 (mem_In _ _) Op), orb_false_r in C2.
      apply Nat.ltb_lt, C2. unfold table0. apply (in_map (fun s => (rank s, outs s))), It0.
    + apply corpus_outlike in K. rewrite K in OL. discriminate OL.
    + exfalso. assert (K0 : In (tempdir ("/winkbd/" ++ f)) (flat_map outs g0)) by (apply in_flat_map; eauto).
      pose proof (proj1 (forallb_forall _ _) check_made _ K0) as M. cbn beta in M. rewrite winkbd_path, prefix_app in M. apply mem_In in M.
      apply in_map_iff in M as (f' & E & M). rewrite winkbd_path in E. apply append_inj in E. subst f'. exact (ok_made _ _ _ O f If M).
Qed.

(** * What is read *)
Definition gen_reads (corpora winkbd : list string) (fd : found) : stmt -> list string := reads (flat_map outs (gen_sh corpora winkbd fd)).
(** Everything read that is no declared input or implicit input *)
Definition hidden_files : list string := [datadir "/render-svg.css"; datadir "/render-svg-print.css"; plex "Thin"; plex "Regular"; wikiextractor].
Definition undeclared (l p : string) : Prop := p = layout_file l \/ In p hidden_files \/ p = osmconvert.
Lemma reads_find all l c r fs : mem r find_rules = true -> fs <> [] -> reads all (write_stmt l (c, (r, fs))) = layout_file l :: fs.
Proof.
  intros M N. unfold reads, layout_of. cbn [rule write_stmt fst snd ins].
  assert (M1 : mem r lulua_rules = false).
  { apply mem_nIn. intros K. apply mem_In in M. unfold find_rules in M. cbn [In] in M. unfold lulua_rules in K. cbn [In] in K.
    repeat (destruct M as [<-|M]; [repeat (destruct K as [K|K]; [discriminate K|]); exact K|]). exact M. }
  assert (M2 : mem r layout_rules = true) by (apply mem_In, in_app_iff; right; apply mem_In, M).
  assert (M3 : svg_reads r = []).
  { apply mem_In in M. unfold find_rules in M. cbn [In] in M. repeat (destruct M as [<-|M]; [reflexivity|]). destruct M. }
  rewrite M1, M2, M, M3. cbn [var vars write_stmt dget fst snd]. destruct fs; [destruct (N eq_refl)|reflexivity].
Qed.
Ltac one_read := first [left; cbn; tauto|right; left; eexists; split; [reflexivity|split; [left; reflexivity|intros E; discriminate E]]|right; left; eexists; split; [reflexivity|split; [right; left; apply mem_In; reflexivity|intros E; discriminate E]]].
Lemma gen_reads_cases corpora winkbd fd s p : ok_inputs corpora winkbd fd -> In s (gen_sh corpora winkbd fd) -> In p (gen_reads corpora winkbd fd s) ->
  In p (ins s ++ imps s) \/ (exists l, layout_of s = Some l /\ undeclared l p /\ (p = osmconvert -> In p (ords s))) \/
  rule s = "report".
Proof.
  intros O Is Ip. unfold gen_reads in Ip. set (all := flat_map outs (gen_sh corpora winkbd fd)) in *.
  unfold gen_sh in Is. rewrite !in_app_iff in Is. destruct Is as [Is|[Is|[Is|[Is|[Is|[Is|Is]]]]]].
  - unfold fixed_stmts in Is. cbn [In] in Is.
    repeat (destruct Is as [<-|Is]; [cbn in Ip; repeat (destruct Ip as [<-|Ip]; [one_read|]); destruct Ip|]).
    destruct Is.
  - apply in_map_iff in Is as (f & <- & _). cbn in Ip. cbn. tauto.
  - unfold driver_stmts in Is. apply in_app_iff in Is as [Is|Is]; [|apply in_app_iff in Is as [Is|Is]].
    + destruct Is as [<-|[<-|[<-|[]]]].
      * cbn in Ip. destruct Ip as [<-|[]]. right. left. exists "ar-lulua". split; [reflexivity|]. split; [left; reflexivity|intros E; discriminate E].
      * cbn in Ip. tauto.
      * left. cbn [ins imps app]. unfold reads in Ip. cbn [rule] in Ip. cbv [layout_of] in Ip. cbn [rule] in Ip.
        change (mem "ninjaC" lulua_rules) with false in Ip. change (mem "ninjaC" layout_rules) with false in Ip. change (mem "ninjaC" find_rules) with false in Ip.
        cbn [String.eqb Ascii.eqb Bool.eqb app] in Ip. cbn [var vars dget] in Ip.
        change (In p (flat_map (fun d => map (fun f => (d ++ "/" ++ f)%string) ("build.ninja" :: driver_sources)) [tempdir "/winkbd"])) in Ip.
        cbn [flat_map] in Ip. rewrite app_nil_r in Ip. apply in_map_iff in Ip as (f & <- & If).
        assert (Kf : In f winkbd \/ f = "keyboard.c").
        { change ("build.ninja" :: driver_sources) with ["build.ninja"; "keyboard.c"; "keyboard.def"; "linker.ld"; "keyboard.c"; "keyboard.def"; "linker.ld"; "keyboard.rc"; "keyboard.rc"] in If.
          cbn [In] in If. pose proof (ok_wanted _ _ _ O) as W. unfold winkbd_wanted in W.
          repeat (destruct If as [<-|If]; [first [right; reflexivity|left; apply W; cbn [In]; tauto]|]). destruct If. }
        unfold w64infiles. apply in_app_iff. destruct Kf as [Kf| -> ]; [left|right; left; reflexivity].
        apply in_map_iff. exists f. split; [reflexivity|exact Kf].
    + apply in_map_iff in Is as (f & <- & _). cbn in Ip. cbn. tauto.
    + destruct Is as [<-|[]]. left. cbn [ins imps app]. unfold reads in Ip. cbn [rule] in Ip. cbv [layout_of] in Ip. cbn [rule] in Ip.
      change (mem "zipR" lulua_rules) with false in Ip. change (mem "zipR" layout_rules) with false in Ip. change (mem "zipR" find_rules) with false in Ip.
      cbn [String.eqb Ascii.eqb Bool.eqb app ins flat_map] in Ip. rewrite app_nil_r in Ip. apply filter_In in Ip as [Ia Ip]. right.
      apply outs_in_g0 in Ia; [|apply O]. destruct Ia as [(f & _ & ->)|Ia].
      * exfalso. cbn in Ip. discriminate Ip.
      * pose proof (proj1 (forallb_forall _ _) check_zip p Ia) as C. cbv beta in C. rewrite Ip in C. apply mem_In in C. exact C.
  - apply in_flat_map in Is as (l & _ & Is). destruct Is as [<-|Is]; [cbn in Ip; tauto|]. apply in_app_iff in Is as [Is|Is].
    + apply in_map_iff in Is as ((c & r & fs) & <- & I). destruct (ok_found _ _ _ O c r fs I) as [N _].
      destruct (mem r find_rules) eqn:M.
      * rewrite reads_find in Ip by assumption. destruct Ip as [<-|Ip]; [|left; apply in_app_iff; left; exact Ip].
        right. left. exists l. split; [|split; [left; reflexivity|intros E; discriminate E]].
        unfold layout_of. cbn [rule write_stmt fst snd]. assert (M2 : mem r layout_rules = true) by (apply mem_In, in_app_iff; right; apply mem_In, M).
        destruct (mem r lulua_rules) eqn:M1; [|rewrite M2; reflexivity]. exfalso. apply mem_In in M, M1. unfold find_rules in M. unfold lulua_rules in M1. cbn [In] in M, M1.
        repeat (destruct M as [<-|M]; [repeat (destruct M1 as [M1|M1]; [discriminate M1|]); exact M1|]). exact M.
      * unfold corpus_rules in I. cbn [In] in I.
        repeat (destruct I as [I|I]; [injection I as <- <- <-; first [discriminate M|
          cbn in Ip; cbn; destruct Ip as [<-|[<-|[<-|[]]]];
          [right; left; exists l; split; [reflexivity|split; [left; reflexivity|intros E; discriminate E]]
          |right; left; exists l; split; [reflexivity|split; [first [right; left; apply mem_In; reflexivity|right; right; reflexivity]|intros E; first [discriminate E|right; left; reflexivity]]]
          |left; left; reflexivity]]|]). destruct I.
    + cbn [In] in Is.
      repeat (destruct Is as [<-|Is]; [cbn in Ip; repeat (destruct Ip as [<-|Ip]; [one_read|]); destruct Ip|]).
      destruct Is.
  - apply in_map_iff in Is as (l & <- & _). cbn in Ip. destruct Ip as [<-|[]]. right. left. exists l. split; [reflexivity|split; [left; reflexivity|intros E; discriminate E]].
  - apply in_map_iff in Is as (c & <- & _). cbn in Ip. cbn. destruct Ip as [<-|[<-|[<-|[]]]]; [|tauto|tauto].
    right. left. exists "ar-lulua". split; [reflexivity|split; [left; reflexivity|intros E; discriminate E]].
  - unfold report_stmts in Is. destruct Is as [<-|[<-|[<-|[]]]].
    + cbn [ins imps after app]. unfold reads in Ip. cbn [rule after ins] in Ip. cbv [layout_of] in Ip. cbn [rule after] in Ip.
      change (mem "analyze-triadeffortplot" lulua_rules) with true in Ip. change (mem "analyze-triadeffortplot" find_rules) with false in Ip.
      cbn [String.eqb Ascii.eqb Bool.eqb app] in Ip. destruct Ip as [<-|Ip].
      * right. left. exists "ar-lulua". split; [reflexivity|split; [left; reflexivity|intros E; discriminate E]].
      * left. apply in_app_iff. left. exact Ip.
    + cbn in Ip. destruct Ip.
    + right. right. reflexivity.
Qed.
Lemma gen_report corpora winkbd fd s : In s (gen_sh corpora winkbd fd) -> rule s = "report" -> s = nth 2 (report_stmts corpora) s.
Proof.
  intros Is K. unfold gen_sh in Is. rewrite !in_app_iff in Is. destruct Is as [Is|[Is|[Is|[Is|[Is|[Is|Is]]]]]].
  - unfold fixed_stmts in Is. cbn [In] in Is. repeat (destruct Is as [<-|Is]; [discriminate K|]). destruct Is.
  - apply in_map_iff in Is as (f & <- & _). discriminate K.
  - unfold driver_stmts in Is. apply in_app_iff in Is as [Is|Is]; [|apply in_app_iff in Is as [Is|Is]].
    + destruct Is as [<-|[<-|[<-|[]]]]; discriminate K.
    + apply in_map_iff in Is as (f & <- & _). discriminate K.
    + destruct Is as [<-|[]]. discriminate K.
  - apply in_flat_map in Is as (l & _ & Is). destruct Is as [<-|Is]; [discriminate K|]. apply in_app_iff in Is as [Is|Is].
    + apply in_map_iff in Is as ((c & r & fs) & <- & I). cbn [write_stmt rule fst snd] in K. subst r. unfold corpus_rules in I. cbn [In] in I.
      repeat (destruct I as [I|I]; [discriminate I|]). destruct I.
    + cbn [In] in Is. repeat (destruct Is as [<-|Is]; [discriminate K|]). destruct Is.
  - apply in_map_iff in Is as (l & <- & _). discriminate K.
  - apply in_map_iff in Is as (c & <- & _). discriminate K.
  - destruct Is as [<-|[<-|[<-|[]]]]; [discriminate K|discriminate K|reflexivity].
Qed.
Lemma gen_declared corpora winkbd fd : ok_inputs corpora winkbd fd ->
  forall s p, In s (gen_sh corpora winkbd fd) -> In p (gen_reads corpora winkbd fd s) -> built (gen_sh corpora winkbd fd) p -> In p (needs s).
Proof.
  intros O s p Is Ip B. apply outlike_ok in B; [|apply O]. assert (Ip0 := Ip). assert (Is0 := Is).
  destruct (gen_reads_cases corpora winkbd fd s p O Is Ip) as [K|[(l & _ & U & K)|K]].
  - unfold needs. rewrite app_assoc. apply in_app_iff. left. exact K.
  - destruct U as [->|[U|E]]; [discriminate B|exfalso; unfold hidden_files in U; cbn [In] in U; repeat (destruct U as [<-|U]; [discriminate B|]); exact U|].
    unfold needs. rewrite !in_app_iff. right. right. apply K, E.
  - assert (E := gen_report corpora winkbd fd s Is K).
    rewrite E in Ip |- *. cbn [nth report_stmts] in Ip |- *. unfold gen_reads, reads in Ip. cbn [rule] in Ip. cbv [layout_of] in Ip. cbn [rule] in Ip.
    change (mem "report" lulua_rules) with false in Ip. change (mem "report" layout_rules) with false in Ip. change (mem "report" find_rules) with false in Ip.
    cbn [String.eqb Ascii.eqb Bool.eqb app] in Ip. cbn [needs ins imps ords app]. destruct Ip as [<-|Ip]; [discriminate B|].
    right. right. exact Ip.
Qed.
