(** Properties C01-C05 (lulua/keyboard.py). *)
From Coq Require Import QArith.
From Verif Require Import Base KeyboardModel KeyboardSpec KeyboardProofs.
Close Scope Q_scope.
Open Scope string_scope.
Open Scope list_scope.

(** C01: buttons are equal (same id) iff their names are, whatever the history
    of constructions; [.name] is the constructor argument. *)
Theorem C01_button_identity (names : list string) (i j : nat) (ni nj : string) (bi bj : N) :
  nth_error names i = Some ni -> nth_error names j = Some nj ->
  nth_error (fst (create reg0 names)) i = Some bi -> nth_error (fst (create reg0 names)) j = Some bj ->
  (bi = bj <-> ni = nj) /\ name_of (snd (create reg0 names)) bi = Ok ni.
Proof. apply button_identity. Qed.
Example C01_example :
  fst (create reg0 ["Dl1"; "Dl2"; "Dl1"; "Fl_space"; "Dl2"]) = [0; 1; 0; 2; 1]%N.
Proof. reflexivity. Qed.

(** C02: a button sent from a process that constructed [a] to one that
    constructed [b] keeps its name, for all buttons of the sender, exactly if
    the sender's sequence of distinct names is a prefix of the receiver's. *)
Theorem C02_pickling_partial (a b : list string) :
  (forall n i, In n a -> fst (intern (snd (create reg0 a)) n) = i -> name_of (snd (create reg0 b)) i = Ok n)
  <-> exists c, distinct b = distinct a ++ c.
Proof. apply pickling_iff. Qed.
Example C02_example : exists c, distinct ["x"; "y"; "x"; "z"] = distinct ["x"; "x"; "y"] ++ c.
Proof. exists ["z"]. reflexivity. Qed.

(** The unrestricted claim fails: two processes loading keyboards in different
    order swap buttons. *)
Theorem C02_pickling_refuted : exists (a b : list string) n,
  In n a /\ In n b /\
  exists m, name_of (snd (create reg0 b)) (fst (intern (snd (create reg0 a)) n)) = Ok m /\ m <> n.
Proof.
  exists ["Dl1"; "Dl2"], ["Dl2"; "Dl1"], "Dl1". split; [cbn; auto|]. split; [cbn; auto|].
  exists "Dl2". split; [reflexivity|discriminate].
Qed.

(** C03: writing a keyboard to a file and reading it back. *)
Theorem C03_keyboard_roundtrip w ns kb :
  wreg w = snd (create reg0 ns) ->
  kb = keyboard_new (kname kb) (kdesc kb) (krows kb) ->
  Forall (valid_button w) (all_buttons (krows kb)) ->
  exists w1 d w2 d2 w3 kb',
    kb_serialize w kb = (w1, Ok d) /\ reload w1 d = (w2, d2) /\
    kb_deserialize w2 d2 = (w3, Ok kb') /\
    same_keyboard w kb w3 kb' /\ kbtorow kb' = kbtorow kb /\
    Forall (valid_button w3) (all_buttons (krows kb')).
Proof. apply keyboard_roundtrip. Qed.
(** What is written of a button: exactly what differs from the defaults, besides name, width and scancode *)
Theorem C03_written w b : valid_button w b -> exists w' d, button_serialize w b = (w', Ok d) /\ forall k v, dget d k = Some v <-> written w b k v.
Proof. apply serialize_written. Qed.
Theorem C03_unknown_kind w data s :
  dget data "kind" = Some (YStr s) -> s <> "standard" -> s <> "letter" -> s <> "multi" ->
  exists d', button_deserialize w data = (w, d', Raise KeyError).
Proof. apply deserialize_unknown_kind. Qed.

Definition ex_world : world :=
  mkWorld (snd (create reg0 ["Dl1"; "CD_ret"; "Fl_space"]))
    [[("xorg", YNum 38); ("windows", YTuple [YNum 30])];
     [("windows", YTuple [YNum 224; YNum 28]); ("keyman", YStr "K_ENTER")]].
Definition ex_keyboard : keyboard :=
  keyboard_new (YStr "kb") (YStr "test")
    [([mkButton 0 Letter (YNum 1) (YBool true) None (Some 0)], [mkButton 1 Multi (YNum (3#2)) YNone (Some (YNum 2)) (Some 1)]);
     ([], [mkButton 2 Standard (YNum 6) (YBool false) None None])].
(** A description that is accepted: which keys it may have, and what the button
    gets from it or by default. *)
Theorem C03_accepted w ns data w' d' b : wreg w = snd (create reg0 ns) -> dict_wf data -> button_deserialize w data = (w', d', Ok b) ->
  given data "kind" (YStr "standard") = YStr (kind_name (bkind b)) /\
  (exists n, dget data "name" = Some (YStr n) /\ button_name w' b = Ok n) /\
  bwidth b = given data "width" (YNum 1) /\
  bmarked b = given data "isMarked" (YBool false) /\
  scan_val (bscan b) = given data "scancode" YNone /\
  bspan b = dget data "span" /\ (bspan b <> None <-> bkind b = Multi) /\
  incl (dkeys data) button_keys.
Proof. intros Hr. destruct (create_inv ns RegInv0) as [HI _]. rewrite <- Hr in HI. exact (@button_accepted _ _ _ _ _ _ HI). Qed.
Example C03_accepted_example : exists w' d' b,
  button_deserialize (mkWorld reg0 []) [("kind", YStr "letter"); ("name", YStr "Cl1"); ("isMarked", YBool true)] = (w', d', Ok b).
Proof. do 3 eexists. reflexivity. Qed.
Example C03_example :
  wreg ex_world = snd (create reg0 ["Dl1"; "CD_ret"; "Fl_space"]) /\
  ex_keyboard = keyboard_new (kname ex_keyboard) (kdesc ex_keyboard) (krows ex_keyboard) /\
  Forall (valid_button ex_world) (all_buttons (krows ex_keyboard)).
Proof.
  split; [reflexivity|]. split; [reflexivity|].
  repeat constructor; try (eexists; reflexivity).
Qed.

(** C04: [serialize] changes at most the 'windows' scancode of the button's own
    table, from a tuple to a list with the same elements. *)
Theorem C04_serialize_effect_partial w b : valid_button w b -> exists w' d,
  button_serialize w b = (w', Ok d) /\ wreg w' = wreg w /\
  forall l,
    (forall k, k <> "windows" -> dget (heap_get (wheap w') l) k = dget (heap_get (wheap w) l) k) /\
    (dget (heap_get (wheap w') l) "windows" = dget (heap_get (wheap w) l) "windows" \/
     exists s, bscan b = Some l /\ dget (heap_get (wheap w) l) "windows" = Some (YTuple s) /\
               dget (heap_get (wheap w') l) "windows" = Some (YList s)).
Proof. apply serialize_effect. Qed.
(** ... but that change makes it unusable as a dict key afterwards, which is how
    render.py:515-520 uses it. *)
Theorem C04_serialize_effect_refuted : exists w b w' d v v',
  valid_button w b /\ button_serialize w b = (w', Ok d) /\
  dget (heap_get (wheap w) 0) "windows" = Some v /\ bscan b = Some 0 /\ hashable v = true /\
  dget (heap_get (wheap w') 0) "windows" = Some v' /\ hashable v' = false.
Proof.
  exists ex_world, (mkButton 0 Letter (YNum 1) (YBool true) None (Some 0)).
  do 4 eexists. split; [repeat constructor; eexists; reflexivity|].
  split; [vm_compute; reflexivity|]. vm_compute. repeat split; reflexivity.
Qed.
Theorem C04_deserialize_argument w data :
  snd (fst (button_deserialize w data)) = ddel data "kind".
Proof. apply deserialize_argument. Qed.
Example C04_example : exists w' b,
  button_deserialize ex_world [("kind", YStr "letter"); ("name", YStr "Er1")] = (w', [("name", YStr "Er1")], Ok b).
Proof. do 2 eexists. vm_compute. reflexivity. Qed.

(** C05: lookups. *)
Theorem C05_getitem w kb name : Forall (fun b => exists n, button_name w b = Ok n) (kb_keys kb) ->
  match kb_getitem (wreg w) kb name with
  | Ok b => exists l1 l2, kb_keys kb = l1 ++ b :: l2 /\ button_name w b = Ok name /\
                          Forall (fun c => button_name w c <> Ok name) l1
  | Raise e => e = KeyError /\ Forall (fun c => button_name w c <> Ok name) (kb_keys kb)
  end.
Proof. apply find_button_spec. Qed.
Theorem C05_len kb : kb_len kb = List.length (kb_keys kb).
Proof. apply kb_len_keys. Qed.
Theorem C05_getRow name desc rows b j :
  kb_getRow (keyboard_new name desc rows) b = Ok j <->
  exists row, nth_error rows j = Some row /\ In (bid b) (map bid (fst row ++ snd row)) /\
    (forall j' row', j < j' -> nth_error rows j' = Some row' -> ~ In (bid b) (map bid (fst row' ++ snd row'))).
Proof. apply getRow_spec. Qed.
Theorem C05_getRow_error name desc rows b e :
  kb_getRow (keyboard_new name desc rows) b = Raise e <->
  e = KeyError /\ ~ In (bid b) (map bid (all_buttons rows)).
Proof. apply getRow_error. Qed.
Example C05_example :
  map (fun b => kb_getRow ex_keyboard b) (kb_keys ex_keyboard) = [Ok 0; Ok 0; Ok 1] /\
  res_map bid (kb_getitem (wreg ex_world) ex_keyboard "Fl_space") = Ok 2%N /\
  res_map bid (kb_getitem (wreg ex_world) ex_keyboard "Fr_space") = Raise KeyError /\
  Forall (fun b => exists n, button_name ex_world b = Ok n) (kb_keys ex_keyboard).
Proof. repeat split; repeat constructor; eexists; reflexivity. Qed.

Print Assumptions C01_button_identity.
Print Assumptions C02_pickling_partial.
Print Assumptions C02_pickling_refuted.
Print Assumptions C03_keyboard_roundtrip.
Print Assumptions C03_written.
Print Assumptions C03_unknown_kind.
Print Assumptions C03_accepted.
Print Assumptions C04_serialize_effect_partial.
Print Assumptions C04_serialize_effect_refuted.
Print Assumptions C04_deserialize_argument.
Print Assumptions C05_getitem.
Print Assumptions C05_len.
Print Assumptions C05_getRow.
Print Assumptions C05_getRow_error.
