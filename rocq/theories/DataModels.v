(** Generated by tools/gen_data.py from lulua/carpalx.py:46-234 (models). Do not edit. *)
From Coq Require Import QArith.
From Verif Require Import Base LayoutModel CarpalxModel.
Close Scope Q_scope.
Open Scope string_scope.
Open Scope list_scope.

Section Models.
  Context {nm : num}.
  Definition mod01 : params nm := {|
    kB := (nlit 3555 10000); kP := (nlit 6423 10000); kS := (nlit 4268 10000);
    k1 := (nlit 10 10); k2 := (nlit 367 1000); k3 := (nlit 235 1000); kSim := (nlit 10 10);
    w0 := (nlit 0 10); wH := (nlit 10 10); wR := (nlit 13088 10000); wF := (nlit 25948 10000);
    pHand := [(LEFT, (nlit 0 10)); (RIGHT, (nlit 0 10))];
    pRow := [(nlit 15 10); (nlit 5 10); (nlit 0 10); (nlit 10 10); (nlit 15 10)];
    pFinger := [(LEFT, [(THUMB, (nlit 0 10)); (INDEX, (nlit 0 10)); (MIDDLE, (nlit 0 10)); (RING, (nlit 5 10)); (LITTLE, (nlit 10 10))]);
                (RIGHT, [(THUMB, (nlit 0 10)); (INDEX, (nlit 0 10)); (MIDDLE, (nlit 0 10)); (RING, (nlit 5 10)); (LITTLE, (nlit 10 10))])];
    fH := (nlit 10 10); fR := (nlit 3 10); fF := (nlit 3 10);
    baseline := [
      ("Bl1", (nlit 50 10));
      ("Bl2", (nlit 50 10));
      ("Bl3", (nlit 40 10));
      ("Bl4", (nlit 40 10));
      ("Bl5", (nlit 40 10));
      ("Bl6", (nlit 35 10));
      ("Bl7", (nlit 45 10));
      ("Br6", (nlit 40 10));
      ("Br5", (nlit 40 10));
      ("Br4", (nlit 40 10));
      ("Br3", (nlit 40 10));
      ("Br2", (nlit 40 10));
      ("Br1", (nlit 45 10));
      ("Cl1", (nlit 20 10));
      ("Cl2", (nlit 20 10));
      ("Cl3", (nlit 20 10));
      ("Cl4", (nlit 20 10));
      ("Cl5", (nlit 25 10));
      ("Cr7", (nlit 30 10));
      ("Cr6", (nlit 20 10));
      ("Cr5", (nlit 20 10));
      ("Cr4", (nlit 20 10));
      ("Cr3", (nlit 25 10));
      ("Cr2", (nlit 40 10));
      ("Cr1", (nlit 60 10));
      ("Dl_caps", (nlit 20 10));
      ("Dl1", (nlit 0 10));
      ("Dl2", (nlit 0 10));
      ("Dl3", (nlit 0 10));
      ("Dl4", (nlit 0 10));
      ("Dl5", (nlit 20 10));
      ("Dr7", (nlit 20 10));
      ("Dr6", (nlit 0 10));
      ("Dr5", (nlit 0 10));
      ("Dr4", (nlit 0 10));
      ("Dr3", (nlit 0 10));
      ("Dr2", (nlit 20 10));
      ("Dr1", (nlit 40 10));
      ("El_shift", (nlit 40 10));
      ("El1", (nlit 40 10));
      ("El2", (nlit 20 10));
      ("El3", (nlit 20 10));
      ("El4", (nlit 20 10));
      ("El5", (nlit 20 10));
      ("El6", (nlit 35 10));
      ("Er5", (nlit 20 10));
      ("Er4", (nlit 20 10));
      ("Er3", (nlit 20 10));
      ("Er2", (nlit 20 10));
      ("Er1", (nlit 20 10));
      ("Er_shift", (nlit 40 10));
      ("Fr_altgr", (nlit 40 10))]
  |}.
  Definition salvo : params nm := {|
    kB := (nlit 3555 10000); kP := (nlit 6423 10000); kS := (nlit 4268 10000);
    k1 := (nlit 10 10); k2 := (nlit 367 1000); k3 := (nlit 235 1000); kSim := (nlit 10 10);
    w0 := (nlit 0 10); wH := (nlit 10 10); wR := (nlit 13088 10000); wF := (nlit 25948 10000);
    pHand := [(LEFT, (nlit 0 10)); (RIGHT, (nlit 0 10))];
    pRow := [(nlit 15 10); (nlit 5 10); (nlit 0 10); (nlit 10 10); (nlit 15 10)];
    pFinger := [(LEFT, [(THUMB, (nlit 0 10)); (INDEX, (nsub (nofZ 1) (ndiv (nlit 609 100) (nlit 657 100)))); (MIDDLE, (nsub (nofZ 1) (ndiv (nlit 565 100) (nlit 657 100)))); (RING, (nsub (nofZ 1) (ndiv (nlit 454 100) (nlit 657 100)))); (LITTLE, (nsub (nofZ 1) (ndiv (nlit 377 100) (nlit 657 100))))]);
                (RIGHT, [(THUMB, (nlit 0 10)); (INDEX, (nsub (nofZ 1) (ndiv (nlit 657 100) (nlit 657 100)))); (MIDDLE, (nsub (nofZ 1) (ndiv (nlit 637 100) (nlit 657 100)))); (RING, (nsub (nofZ 1) (ndiv (nlit 508 100) (nlit 657 100)))); (LITTLE, (nsub (nofZ 1) (ndiv (nlit 427 100) (nlit 657 100))))])];
    fH := (nlit 10 10); fR := (nlit 3 10); fF := (nlit 3 10);
    baseline := [
      ("Bl1", (nlit 50 10));
      ("Bl2", (nlit 50 10));
      ("Bl3", (nlit 40 10));
      ("Bl4", (nlit 40 10));
      ("Bl5", (nlit 40 10));
      ("Bl6", (nlit 35 10));
      ("Bl7", (nlit 45 10));
      ("Br6", (nlit 40 10));
      ("Br5", (nlit 40 10));
      ("Br4", (nlit 40 10));
      ("Br3", (nlit 40 10));
      ("Br2", (nlit 40 10));
      ("Br1", (nlit 45 10));
      ("Cl1", (nlit 20 10));
      ("Cl2", (nlit 20 10));
      ("Cl3", (nlit 20 10));
      ("Cl4", (nlit 20 10));
      ("Cl5", (nlit 23 10));
      ("Cr7", (nlit 30 10));
      ("Cr6", (nlit 19 10));
      ("Cr5", (nlit 20 10));
      ("Cr4", (nlit 20 10));
      ("Cr3", (nlit 22 10));
      ("Cr2", (nlit 40 10));
      ("Cr1", (nlit 60 10));
      ("Dl_caps", (nlit 20 10));
      ("Dl1", (nlit 0 10));
      ("Dl2", (nlit 0 10));
      ("Dl3", (nlit 0 10));
      ("Dl4", (nlit 0 10));
      ("Dl5", (nlit 18 10));
      ("Dr7", (nlit 18 10));
      ("Dr6", (nlit 0 10));
      ("Dr5", (nlit 0 10));
      ("Dr4", (nlit 0 10));
      ("Dr3", (nlit 0 10));
      ("Dr2", (nlit 20 10));
      ("Dr1", (nlit 40 10));
      ("El_shift", (nlit 40 10));
      ("El1", (nlit 40 10));
      ("El2", (nlit 20 10));
      ("El3", (nlit 20 10));
      ("El4", (nlit 20 10));
      ("El5", (nlit 20 10));
      ("El6", (nlit 35 10));
      ("Er5", (nlit 20 10));
      ("Er4", (nlit 20 10));
      ("Er3", (nlit 20 10));
      ("Er2", (nlit 20 10));
      ("Er1", (nlit 20 10));
      ("Er_shift", (nlit 40 10));
      ("Fr_altgr", (nlit 40 10))]
  |}.
End Models.
