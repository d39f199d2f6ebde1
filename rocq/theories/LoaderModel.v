(** Model of YamlLoader, lulua/util.py:38-72.

    Names are lists of characters.  The working directory and the resource
    directory of the package are lists of names and contents; the order of the
    latter is the order of pkg_resources.resource_listdir.  Subdirectories and
    names with slashes are not modelled. *)
From Verif Require Import Base TextModel.
Open Scope list_scope.

(** What opening, parsing or deserialising may do: [Missing] is
    FileNotFoundError, [Unreadable] is yaml.reader.ReaderError, [Failed] any
    other exception. *)
Inductive attempt (A : Type) := Got (x : A) | Missing | Unreadable | Failed (e : exn).
Arguments Got {A}. Arguments Missing {A}. Arguments Unreadable {A}. Arguments Failed {A}.
Definition name := list N.
Definition dot_yaml : name := [46; 121; 97; 109; 108]%N.

Section Loader.
  Context {V T : Type}.
  Variable deserialize : V -> attempt T.
  (** files and the outcome of [yaml.safe_load] on them *)
  Definition dir := list (name * attempt V).
  (** [with f (k) as fd: return self.deserialize (yaml.safe_load (fd))] *)
  Definition load (d : dir) (k : name) : attempt T :=
    match dget d k with
    | None => Missing
    | Some (Got v) => deserialize v
    | Some Missing => Missing
    | Some Unreadable => Unreadable
    | Some (Failed e) => Failed e
    end.
  (** util.py:59-66 *)
  Fixpoint tries (fs : list (unit -> attempt T)) : res T :=
    match fs with
    | [] => Raise KeyError
    | f :: fs' => match f tt with
                  | Got x => Ok x
                  | Missing | Unreadable => tries fs'
                  | Failed e => Raise e
                  end
    end.
  (** util.py:51-66 *)
  Definition getitem (cwd res : dir) (k : name) (onlyRes : bool) : Base.res T :=
    tries ((if onlyRes then [] else [fun _ => load cwd k]) ++ [fun _ => load res (k ++ dot_yaml); fun _ => load res k]).
  (** util.py:71 *)
  Definition is_yaml (n : name) : bool :=
    negb (match n with c :: _ => N.eqb c 46 | [] => false end) && eqb (skipn (List.length n - 5) n) dot_yaml.
  (** util.py:68-72: what is yielded and the exception that ends it *)
  Fixpoint iter_ (cwd res : dir) (ns : list name) : list T * option exn :=
    match ns with
    | [] => ([], None)
    | n :: ns' => if is_yaml n then match getitem cwd res n true with
                                    | Ok x => let (xs, e) := iter_ cwd res ns' in (x :: xs, e)
                                    | Raise e => ([], Some e)
                                    end
                  else iter_ cwd res ns'
    end.
  Definition iter (cwd res : dir) : list T * option exn := iter_ cwd res (dkeys res).
End Loader.
