(** How a browser and its user understand the boxes for hands and fingers. *)
From Coq Require Import QArith Qabs Ascii.
From Verif Require Import Base LayoutModel KlcModel FilesSpec.
Close Scope Q_scope.
Open Scope string_scope.
Open Scope list_scope.

(** [z] is [q] in units of 10^-k, rounded half to even. *)
Definition near (k : nat) (q : Q) (z : Z) : Prop :=
  let d := Qabs (q * inject_Z (10 ^ Z.of_nat k) - inject_Z z) in (d <= 1 # 2 /\ (d == 1 # 2 -> Z.even z = true))%Q.
(** A number with exactly [k] digits after the point, in units of 10^-k *)
Definition decimal (k : nat) (t : text) : option Z :=
  let '(neg, t) := match t with c :: t' => if (c =? 45)%N then (true, t') else (false, t) | [] => (false, t) end in
  match cut (fun c => c =? 46)%N t with
  | ((_ :: _) as a, Some b) =>
      if Nat.eqb (List.length b) k then option_map (fun n => if neg then (- Z.of_N n)%Z else Z.of_N n) (number 0 (a ++ b)) else None
  | _ => None
  end.

Definition dq : text := [34%N].
Definition upto (c : N) (t : text) : option (text * text) := match cut (fun x => x =? c)%N t with (a, Some r) => Some (a, r) | _ => None end.
(** Class and width in thousandths of a percent; the rest follows the tag. *)
Definition read_box (t : text) : option (text * Z * text) :=
  match after (lit "<div class=" ++ dq) t with
  | Some t => match upto 34 t with
    | Some (class, t) => match after (lit " style=" ++ dq ++ lit "width: ") t with
      | Some t => match upto 37 t with
        | Some (w, t) => match decimal 3 w, after (lit ";" ++ dq ++ lit ">") t with
          | Some w, Some t => Some (class, w, t)
          | _, _ => None end
        | None => None end
      | None => None end
    | None => None end
  | None => None
  end.
(** Class, width and the share shown, in hundredths of a percent *)
Definition part := (text * Z * Z)%type.
Definition read_finger (t : text) : option (part * text) :=
  match read_box t with
  | Some (class, w, t) => match upto 60 t with
    | Some (s, t) => match decimal 2 s, after (lit "/div>") t with Some s, Some t => Some ((class, w, s), t) | _, _ => None end
    | None => None end
  | None => None
  end.
Fixpoint read_fingers (fuel : nat) (t : text) : option (list part * text) :=
  match fuel with
  | O => None
  | S f => match after (lit "</div>") t with
    | Some t => Some ([], t)
    | None => match read_finger t with
      | Some (x, t) => match read_fingers f t with Some (l, t) => Some (x :: l, t) | None => None end
      | None => None end
    end
  end.
Definition read_hand (t : text) : option (part * list part * text) :=
  match read_box t with
  | Some (class, w, t) => match after (lit "<div class=" ++ dq ++ lit "hand" ++ dq ++ lit ">") t with
    | Some t => match upto 37 t with
      | Some (s, t) => match decimal 2 s, after (lit "</div><div class=" ++ dq ++ lit "fingers" ++ dq ++ lit ">") t with
        | Some s, Some t => match read_fingers (S (List.length t)) t with
          | Some (l, t) => match after (lit "</div>") t with Some t => Some ((class, w, s), l, t) | None => None end
          | None => None end
        | _, _ => None end
      | None => None end
    | None => None end
  | None => None
  end.
(** Left hand, asymmetry in thousandths, right hand *)
Definition read_widget (t : text) : option ((part * list part) * Z * (part * list part)) :=
  match after (lit "<div class=" ++ dq ++ lit "fingerhandstats" ++ dq ++ lit " dir=" ++ dq ++ lit "ltr" ++ dq ++ lit " lang=" ++ dq ++ lit "en" ++ dq ++ lit ">") t with
  | Some t => match read_hand t with
    | Some (l, ls, t) => match after (lit "<div class=" ++ dq ++ lit "asymm" ++ dq ++ lit "><small>Asymmetry: ") t with
      | Some t => match upto 60 t with
        | Some (a, t) => match decimal 3 a, after (lit "/small></div>") t with
          | Some a, Some t => match read_hand t with
            | Some (r, rs, t) => match after (lit "</div>") t with Some [] => Some ((l, ls), a, (r, rs)) | _ => None end
            | None => None end
          | _, _ => None end
        | None => None end
      | None => None end
    | None => None end
  | None => None
  end.
