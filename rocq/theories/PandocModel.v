(** Model of lulua/text.py:253-269 (filterMediawikiMarkdown): two processes and the
    pipes between them. *)
From Verif Require Import Base TextModel FilterModel.
Open Scope list_scope.
Unset Implicit Arguments.

(** What the converter does next: read from its standard input (the end of the file
    is the empty string), write a byte to its standard output or exit. *)
Inductive action (S : Type) := ARead (k : list N -> S) | AWrite (b : N) (s : S) | AExit (code : Z).
Arguments ARead {S}. Arguments AWrite {S}. Arguments AExit {S}.
Inductive process (S : Type) := Alive (s : S) | Exited (code : Z).
Arguments Alive {S}. Arguments Exited {S}.
(** The filter: writing (text.py:259), reading (text.py:261), done with a result, or
    BrokenPipeError *)
Inductive parent := PWrite (rest : list N) | PRead (acc : list N) | PDone (g : gen text) | PBroken.

Section Pandoc.
  Variable S : Type.
  Variable act : S -> action S.
  (** How many bytes a pipe holds *)
  Variable capacity : nat.
  Variable decode : list N -> res text.

  Record state := mkS { s_parent : parent; s_in : list N; s_child : process S; s_out : list N }.
  (** text.py:261-269: decoding comes before waiting for the converter. *)
  Definition result (code : Z) (out : list N) : gen text :=
    match decode out with
    | Raise e => ([], Some e)
    | Ok t => if (code =? 0)%Z then ([t], None) else ([], None)
    end.
  (** text.py:257-258 *)
  Definition started (bytes : list N) (s : S) : state := mkS (PWrite bytes) [] (Alive s) [].
  Inductive step : state -> state -> Prop :=
    (** text.py:259: write to the pipe unless it is full *)
    | St_write b r i s o : List.length i < capacity -> step (mkS (PWrite (b :: r)) i (Alive s) o) (mkS (PWrite r) (i ++ [b]) (Alive s) o)
    | St_broken b r i c o : step (mkS (PWrite (b :: r)) i (Exited c) o) (mkS PBroken i (Exited c) o)
    (** text.py:260 *)
    | St_close i ch o : step (mkS (PWrite []) i ch o) (mkS (PRead []) i ch o)
    (** The converter reads some of the bytes in the pipe. *)
    | St_cread p a r s k o : act s = ARead k -> a <> [] -> step (mkS p (a ++ r) (Alive s) o) (mkS p r (Alive (k a)) o)
    | St_ceof acc s k o : act s = ARead k -> step (mkS (PRead acc) [] (Alive s) o) (mkS (PRead acc) [] (Alive (k [])) o)
    | St_cwrite p i s b s' o : act s = AWrite b s' -> List.length o < capacity -> step (mkS p i (Alive s) o) (mkS p i (Alive s') (o ++ [b]))
    | St_cexit p i s c o : act s = AExit c -> step (mkS p i (Alive s) o) (mkS p i (Exited c) o)
    (** text.py:261 *)
    | St_pread acc i ch a r : a <> [] -> step (mkS (PRead acc) i ch (a ++ r)) (mkS (PRead (acc ++ a)) i ch r)
    (** text.py:261-269: the pipe is empty and has no writer any more. *)
    | St_done acc i c : step (mkS (PRead acc) i (Exited c) []) (mkS (PDone (result c acc)) i (Exited c) []).
  Inductive steps : state -> state -> Prop :=
    | Steps_nil a : steps a a
    | Steps_cons a b c : steps a b -> step b c -> steps a c.
  (** What the filter yields or raises; BrokenPipeError is a PlainException. *)
  Definition outcome (p : parent) : option (gen text) :=
    match p with PDone g => Some g | PBroken => Some ([], Some PlainException) | _ => None end.
  (** text.py:253-269 *)
  Definition filterMediawikiMarkdown (encode : text -> res (list N)) (s : S) (t : text) (g : gen text) : Prop :=
    match encode t with
    | Raise e => g = ([], Some e)
    | Ok bytes => exists fin, steps (started bytes s) fin /\ outcome (s_parent fin) = Some g
    end.
End Pandoc.
Arguments mkS {S}. Arguments s_parent {S}. Arguments s_in {S}. Arguments s_child {S}. Arguments s_out {S}. Arguments started {S}.
