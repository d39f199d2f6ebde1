(** What it means for a layout to assign texts, without tries or tables. *)
From Verif Require Import Base LayoutModel.

(** Some layer assigns [t] to [b]. *)
Definition assigned_at (ls : list layer) (b : string) (t : text) : Prop :=
  exists l, In l ls /\ In (b, CText t) (llayout l).
Definition assigned (ls : list layer) (t : text) : Prop := exists b, assigned_at ls b t.

(** [t] is the longest assigned prefix of [buf]. *)
Definition longest_assigned (ls : list layer) (buf t : text) : Prop :=
  assigned ls t /\ (exists r, buf = t ++ r) /\
  forall t', assigned ls t' -> (exists r, buf = t' ++ r) -> length t' <= length t.
Definition unmapped (ls : list layer) (buf : text) : Prop :=
  forall t, assigned ls t -> ~ exists r, buf = t ++ r.

(** All ways to type [t], in order of layers, buttons, modifiers. *)
Definition ways (ls : list layer) (t : text) : list comb :=
  flat_map (fun l =>
    flat_map (fun bv => match snd bv with
                        | CText t' => if eqb t t' then map (fun m => mkComb m (frozenset [fst bv])) (lmods l) else []
                        | COther => []
                        end) (llayout l)) ls.

(** Layers as produced from YAML: dicts have distinct keys. *)
Definition layers_wf (ls : list layer) : Prop := Forall (fun l => dict_wf (llayout l)) ls.
(** No modifier is listed by two different layers. *)
Definition mods_disjoint (ls : list layer) : Prop :=
  forall i j l l' m, nth_error ls i = Some l -> nth_error ls j = Some l' ->
    In m (lmods l) -> In m (lmods l') -> i = j.
(** Nothing maps to the empty string, and each layer can be reached. *)
Definition layers_ok (ls : list layer) : Prop :=
  Forall (fun l => Forall (fun bv => snd bv <> CText []) (llayout l) /\
                   ((exists b t, In (b, CText t) (llayout l)) -> lmods l <> [])) ls.

(** All button names a layout mentions. *)
Definition mentioned (ls : list layer) : list string :=
  flat_map (fun l => flat_map elems (lmods l) ++ map fst (llayout l)) ls.
