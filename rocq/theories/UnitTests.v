(** The cases of the project's own unit tests (lulua/test_*.py) on the model.
    They show that the model agrees with what the authors observed.  Tests of
    whole classes of inputs are theorems elsewhere: test_layout.py in C07, C09,
    C10, test_carpalx.py in C30_example, test_keyboard.py in C01, C03, C05. *)
From Coq Require Import QArith.
From Verif Require Import Base UtilModel LayoutModel WriterModel StatsModel HeapModel TextModel FilterModel ReportModel KlcModel CurveModel
  RenderModel CarpalxModel CarpalxSpec OptModel DataLayouts DataFingermap DataKeyboard ShippedProofs.
From Verif Require PropsCurve.
Close Scope Q_scope.
Open Scope string_scope.
Open Scope list_scope.

(** * test_writer.py *)
Definition bc (m b : list string) : comb := mkComb (frozenset m) (frozenset b).
Definition ar_linux : layout := Eval vm_compute in layout_new (shipped_layers data_ar_linux).
(** test_writer.py:44-72 *)
Example test_writer_type_1 : type_text defaultFingermap ar_linux None [0x634; 0x633; 0x636; 0x635]%N =
  ([EMatch [0x634%N] (bc [] ["Dl1"]); EMatch [0x633%N] (bc [] ["Dl2"]); EMatch [0x636%N] (bc [] ["Cl1"]);
    EMatch [0x635%N] (bc [] ["Cl2"])], Done, Some (bc [] ["Cl2"])).
Proof. vm_compute. reflexivity. Qed.
Example test_writer_type_2 : type_text defaultFingermap ar_linux None [97; 0x635; 98]%N =
  ([ESkip 97; EMatch [0x635%N] (bc [] ["Cl2"]); ESkip 98], Done, Some (bc [] ["Cl2"])).
Proof. vm_compute. reflexivity. Qed.
(** test_writer.py:74-125: combinations, index of the one expected, previous press *)
Definition testCombs : list (list comb * nat * option comb) := [
  ([bc ["El_shift"] ["Dr7"]; bc ["Er_shift"] ["Dr7"]], 0, None);
  ([bc ["El_shift"] ["Dl5"]; bc ["Er_shift"] ["Dl5"]], 1, None);
  ([bc [] ["Fl_space"]; bc [] ["Fr_space"]], 0, Some (bc [] ["Dr7"]));
  ([bc [] ["Fl_space"]; bc [] ["Fr_space"]], 1, Some (bc [] ["Dl5"]));
  ([bc [] ["Fl_space"]; bc [] ["Fr_space"]], 1, Some (bc ["El_shift"] ["Dr7"]));
  ([bc [] ["Fl_space"]; bc [] ["Fr_space"]], 0, Some (bc ["Er_shift"] ["Dl5"]));
  ([bc [] ["CD_ret"]; bc ["Er_shift"] ["CD_ret"]; bc ["El_shift"] ["CD_ret"]], 0, None);
  ([bc ["El_shift"] ["Cl4"]; bc ["Er_shift"] ["Cl4"]], 1, Some (bc [] ["Fr_space"]))].
Example test_writer_chooseComb : Forall (fun x => let '(cs, i, prev) := x in
  chooseCombination defaultFingermap prev cs = of_opt IndexError (nth_error cs i)) testCombs.
Proof. repeat constructor. Qed.

(** * test_layout.py:72-77 *)
Example test_layout_isModifier : isModifier ar_linux (frozenset ["El_shift"]) = true /\
  isModifier ar_linux (frozenset ["Er_shift"]) = true /\ isModifier ar_linux (frozenset ["Dr1"]) = false.
Proof. vm_compute. auto. Qed.
(** test_layout.py:79-90 *)
Example test_buttoncomb_eq : let a := bc ["a"] ["b"] in let c := bc ["a"] ["c"] in
  eqb a (bc ["a"] ["b"]) = true /\ eqb a c = false /\
  dhas (dset [] a "a") (bc ["a"] ["b"]) = true /\ dhas (dset [] a "a") c = false.
Proof. vm_compute. auto. Qed.

(** * test_optimize.py:23-38: the state is a list that mutate replaces *)
Definition null_mutate (c : unit) (m : list Q) (p : nat) : res (unit * list Q * Q * nat) :=
  let m' := map (fun x => x - 1)%Q m in Ok (c, m', (nsum_py (nm := Qnum) m' - nsum_py (nm := Qnum) m)%Q, p).
Example test_null_annealer (thr : nat -> Q) :
  match anneal_run (nm := Qnum) null_mutate thr 1 (mkHeap [tt] [[1; 2; 3]%Q]) (0, 0) 0 with
  | Ok s => (exists m, nth_error (hm (a_heap s)) (snd (fst (a_best s))) = Some m /\ Forall2 Qeq m [0; 1; 2]%Q) /\
            Qeq (snd (a_best s)) ((0 + 1 + 2) - (1 + 2 + 3))%Q /\
            (exists m, nth_error (hm (a_heap s)) (snd (a_state s)) = Some m /\ Qeq (nsum_py (nm := Qnum) m) (0 + 1 + 2)%Q)
  | Raise _ => False
  end.
Proof.
  cbn. repeat split; eexists; (split; [reflexivity|]); repeat constructor.
Qed.

(** * test_report.py.  Decimal converts floats exactly. *)
Definition thousand : text := [116; 104; 111; 117; 115; 97; 110; 100]%N.
Definition million : text := [109; 105; 108; 108; 105; 111; 110]%N.
Definition billion : text := [98; 105; 108; 108; 105; 111; 110]%N.
Definition f_0_01 := mkDec 1000000000000000020816681711721685132943093776702880859375 59.
Definition f_0_05 := mkDec 5000000000000000277555756156289135105907917022705078125 56.
Definition f_999_9 := mkDec 9998999999999999772626324556767940521240234375 43.
Definition f_999_91 := mkDec 9999099999999999681676854379475116729736328125 43.
Definition f_999_99 := mkDec 999990000000000009094947017729282379150390625 42.
Example test_approx : Forall (fun x => approx "en" (fst x) = Ok (Some (snd x))) [
  (mkDec 0 0, (0%Z, [])); (f_0_01, (0%Z, [])); (f_0_05, (1%Z, [])); (mkDec 1 0, (10%Z, [])); (mkDec 100 0, (1000%Z, []));
  (f_999_9, (9999%Z, [])); (f_999_91, (9999%Z, [])); (f_999_99, (10%Z, thousand));
  (mkDec 1000 0, (10%Z, thousand)); (mkDec 1000000 0, (10%Z, million)); (mkDec 1000000000 0, (10%Z, billion));
  (mkDec 1000000000000 0, (10000%Z, billion))].
Proof. repeat constructor. Qed.

(** * test_stats.py:29-41 *)
Definition counter_ (l : list (nat * Z)) : list (nat * val) := map (fun kv => (fst kv, VInt (snd kv))) l.
Example test_updateDictOp_flat :
  updHeap 2 [(0, counter_ [(1, (3)%Z)]); (1, counter_ [(1, (11)%Z); (7, (13)%Z)])] 0 1 =
  Ok [(0, counter_ [(1, (3 + 11)%Z); (7, (13)%Z)]); (1, counter_ [(1, (11)%Z); (7, (13)%Z)])].
Proof. vm_compute. reflexivity. Qed.
(** foo is 0 *)
Example test_updateDictOp_nested :
  updHeap 3 [(0, [(0, VRef 2)]); (1, [(0, VRef 3)]); (2, counter_ [(1, (3)%Z)]); (3, counter_ [(1, (7)%Z)])] 0 1 =
  Ok [(0, [(0, VRef 2)]); (1, [(0, VRef 3)]); (2, counter_ [(1, (3 + 7)%Z)]); (3, counter_ [(1, (7)%Z)])].
Proof. vm_compute. reflexivity. Qed.
(** test_stats.py:50-76 *)
Definition comb1 : comb := bc ["Dl_caps"] ["Bl1"].
Example test_simplestats : exists s1 s2,
  simple_process simple_init (SSkip 97) = Ok s1 /\ s_unknown s1 = [(97%N, 1%Z)] /\ s_combs s1 = [] /\ s_buttons s1 = [] /\
  simple_process s1 (SComb comb1) = Ok s2 /\ dget (s_buttons s2) "Dl_caps" = Some 1%Z /\ dget (s_buttons s2) "Bl1" = Some 1%Z /\
  dget (s_combs s2) comb1 = Some 1%Z /\ s_unknown s2 = [(97%N, 1%Z)] /\ simple_update simple_init s2 = s2.
Proof. do 2 eexists. repeat (split; [vm_compute; reflexivity|]). vm_compute. reflexivity. Qed.
(** test_stats.py:78-110 *)
Definition triads_after (es : list sevent) : res (list (list comb * Z)) :=
  do t <- triads_init kb_names; do t <- foldM triads_process es t; Ok (t_triads t).
Example test_triadstats : let c := SComb comb1 in let three := [comb1; comb1; comb1] in
  triads_after [] = Ok [] /\ triads_after [SSkip 97] = Ok [] /\
  triads_after [SSkip 97; c; c; c] = Ok [(three, 1%Z)] /\ triads_after [SSkip 97; c; c; c; c] = Ok [(three, 2%Z)] /\
  triads_after [SSkip 97; c; c; c; c; SSkip 97; c; c] = Ok [(three, 2%Z)] /\
  triads_after [SSkip 97; c; c; c; c; SSkip 97; c; c; c] = Ok [(three, 3%Z)].
Proof. vm_compute. repeat split; reflexivity. Qed.
(** test_stats.py:112-124 *)
Example test_stats_process_value letter L t : simple_process simple_init SOther = Raise ValueError /\
  runlen_process defaultFingermap runlen_init SOther = Raise ValueError /\ triads_process t SOther = Raise ValueError /\
  words_process letter L words_init SOther = Raise ValueError.
Proof. repeat split. Qed.

(** * test_text.py:27-51 *)
Example test_map_chars_mapped : mapChars charMap (map fst charMap) = flat_map snd charMap /\
  mapChars charMap (flat_map snd charMap ++ [97%N]) = flat_map snd charMap ++ [97%N].
Proof. vm_compute. auto. Qed.
(** test_text.py:53-60, with a decompressor for uncompressed files *)
Definition hello : list N := [104; 101; 108; 108; 111; 32; 119; 111; 114; 108; 100]%N.
Example test_brotlifile : Forall (fun chunk =>
  brotli_reads (fun n d => Ok (n - List.length d, d)) (Nat.eqb 0) chunk 20 [Some 1%Z; None] (FilterModel.mkBF 11 [] hello) =
  Ok [firstn 1 hello; skipn 1 hello]) [1; 2; 3; 1024].
Proof. repeat constructor. Qed.
(** test_text.py:62-69: the tokens for the document, entities already resolved by
    the parser *)
Example test_htmlserialized :
  let toks := [StartTag "html" []; StartTag "head" []; EndTag "head"; StartTag "body" []; SpaceCharacters [10%N]; StartTag "p" [];
               Characters [72; 101; 108; 108; 111; 32; 38]%N; SpaceCharacters [32%N]; Comment [99%N];
               Characters [87; 0xF6; 114; 108; 100; 33; 32; 0x2663; 32; 0x2216]%N; EndTag "p"; SpaceCharacters [10; 10]%N;
               EndTag "body"; EndTag "html"] in
  (let (ys, e) := serialize (fun _ => None) toks in (concat ys, e)) =
  ([32; 72; 101; 108; 108; 111; 32; 38; 32; 87; 0xF6; 114; 108; 100; 33; 32; 0x2663; 32; 0x2216; 10; 10; 32]%N, None).
Proof. vm_compute. reflexivity. Qed.
(** test_text.py:71-81 *)
Example test_apply : apply_filters [fun x => [x * 3]; fun x => [x * 5; x * 7]] [1; 2] = [1 * 3 * 5; 1 * 3 * 7; 2 * 3 * 5; 2 * 3 * 7].
Proof. reflexivity. Qed.
(** test_text.py:83-86; StringIO as in PropsCurve *)
Definition hello100 : text := concat (repeat (lit "Hello World!") 100).
Example test_iterchar : iterchar PropsCurve.read_string (N.to_nat (1 * 1024 * 1024)) (S (List.length hello100)) hello100 = (hello100, None).
Proof.
  apply (PropsCurve.C86_characters PropsCurve.read_string (fun s => (s, None))); [exact PropsCurve.C86_string| |cbn [fst]; lia].
  assert (0 < 1 * 1024 * 1024)%N by reflexivity. lia.
Qed.

(** * test_util.py:25-34: shadda (0x651), fatha (0x64E) combine, the other characters do not *)
Definition marks (c : N) : bool := mem c [0x651; 0x64E]%N.
Definition circled (t : text) : bool :=
  match displayText marks (fun _ => false) (fun _ => None) t with Ok (0x25CC%N :: _) => true | _ => false end.
Example test_displayTextCombining : circled [102; 111; 111; 98; 97; 114]%N = false /\ circled [0x651]%N = true /\
  circled [0x651; 0x64E]%N = true /\ circled [0x64A; 0x651]%N = false.
Proof. vm_compute. auto. Qed.
(** test_util.py:36-44 *)
Example test_limit : limit_list (@nil nat) 1 = [] /\ limit_list (seq 0 3) 0 = [] /\ limit_list (seq 0 3) 3 = seq 0 3 /\
  limit_list (seq 0 1) 100 = seq 0 1 /\ limit_list (seq 0 100) 3 = seq 0 3.
Proof. repeat split. Qed.
(** test_util.py:46-50 *)
Example test_first : UtilModel.first list_next [1; 2; 3] = (Ok 1, [2; 3]) /\ UtilModel.first list_next (seq 0 5) = (Ok 0, seq 1 4) /\
  UtilModel.first list_next (@nil nat) = (Raise StopIteration, []).
Proof. repeat split. Qed.
