(** What command lines mean, without parsing them. *)
From Coq Require Import Ascii.
From Verif Require Import Base ArgModel.
Open Scope string_scope.
Open Scope list_scope.
Unset Implicit Arguments.

(** An option as it is usually written: -l x, --layout=x, -r, -c x y z *)
Inductive item := Given (o s : string) | Joined (o s : string) | Flag (o : string) | Many (o s : string) (l : list string).
Definition item_opt (i : item) : string := match i with Given o _ | Joined o _ | Flag o | Many o _ _ => o end.
Definition words (i : item) : list string :=
  match i with Given o s => [o; s] | Joined o s => [(o ++ "=" ++ s)%string] | Flag o => [o] | Many o s l => o :: s :: l end.
(** A value that cannot be mistaken for an option *)
Definition plain (s : string) : Prop := starts_dash s = false.
Definition fits_action (a : action) (i : item) : Prop :=
  In (item_opt i) (a_opts a) /\
  match i with
  | Given _ s => a_nargs a = N1 /\ (a_kind a = Store \/ a_kind a = Append) /\ plain s
  | Joined _ s => a_nargs a = N1 /\ (a_kind a = Store \/ a_kind a = Append)
  | Flag _ => a_nargs a = N0 /\ a_kind a = StoreTrue
  | Many _ s l => a_nargs a = NPlus /\ a_kind a = Store /\ Forall plain (s :: l)
  end.
Definition fits (p : parser) (i : item) : Prop := exists a, In a (p_actions p) /\ fits_action a i.
Definition is_many (i : item) : bool := match i with Many _ _ _ => true | _ => false end.

Section Spec.
  Variable accepts : conv -> string -> bool.
  (** May the string be given for the action? *)
  Definition allowed (a : action) (s : string) : Prop :=
    (a_conv a = CStr \/ accepts (a_conv a) s = true) /\ match a_choices a with Some l => In s l | None => True end.
  Definition given_strings (i : item) : list string := match i with Given _ s | Joined _ s => [s] | Flag _ => [] | Many _ s l => s :: l end.
  (** All values of the option may be given. *)
  Definition good (p : parser) (i : item) : Prop :=
    forall a, In a (p_actions p) -> In (item_opt i) (a_opts a) -> Forall (allowed a) (given_strings i).
End Spec.

Definition value_of (a : action) (i : item) : value :=
  match i with Given _ s | Joined _ s => VConv (a_conv a) s | Flag _ => VBool true | Many _ s l => VList (map (VConv (a_conv a)) (s :: l)) end.
(** The last one counts, those of mutations are collected. *)
Definition mine (a : action) (items : list item) : list value :=
  map (value_of a) (filter (fun i => mem (item_opt i) (a_opts a)) items).
Definition expected (a : action) (d : value) (items : list item) : value :=
  match a_kind a with
  | Append => match mine a items with [] => d | l => VList (match d with VList d' => d' | _ => [] end ++ l) end
  | _ => last (mine a items) d
  end.

(** Strings given by arguments *)
Definition suffix (s x : string) : Prop := exists pre, x = (pre ++ s)%string.
Definition from_args (args : list string) (s : string) : Prop := exists x, In x args /\ suffix s x.
Section Given.
  Variable accepts : conv -> string -> bool.
  (** A value some argument gives *)
  Definition given (args : list string) (a : action) (v : value) : Prop :=
    let good s := allowed accepts a s /\ from_args args s in
    match a_kind a, a_nargs a with
    | Store, N1 => exists s, v = VConv (a_conv a) s /\ good s
    | Store, _ => exists s l, v = VList (map (VConv (a_conv a)) (s :: l)) /\ Forall good (s :: l)
    | StoreTrue, _ => v = VBool true
    | Append, _ => exists s l, v = VList (map (VConv (a_conv a)) (s :: l)) /\ Forall good (s :: l)
    | _, _ => False
    end.
  (** The same, but a positional may have lost its only argument. *)
  Definition given_or_lost (args : list string) (a : action) (v : value) : Prop :=
    given args a v \/ (a_opts a = [] /\ v = VList [] /\ (2 <= count "--" args)%Z).
  (** Every value is the default or given by the command line. *)
  Definition storing (a : action) : Prop := a_kind a = Store \/ a_kind a = StoreTrue \/ a_kind a = Append.
  Definition has_values (args : list string) (p : parser) (ns : namespace) : Prop :=
    forall a, In a (p_actions p) -> storing a -> exists v, dget ns (a_dest a) = Some v /\ (given_or_lost args a v \/ (a_required a = false /\ a_default a = Some v)).
End Given.
(** Every option has the value it is given. *)
Definition option_values (p : parser) (items : list item) (ns : namespace) : Prop :=
  forall a d, In a (p_actions p) -> a_opts a <> [] -> a_default a = Some d -> dget ns (a_dest a) = Some (expected a d items).
