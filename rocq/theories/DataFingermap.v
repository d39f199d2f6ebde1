(** Generated by tools/gen_data.py from lulua/writer.py:28-108 (defaultFingermap). Do not edit. *)
From Verif Require Import Base LayoutModel.
Open Scope string_scope.
Open Scope list_scope.

Definition defaultFingermap : list (string * (direction * finger)) := [
  ("Bl1", (LEFT, LITTLE));
  ("Bl2", (LEFT, LITTLE));
  ("Bl3", (LEFT, LITTLE));
  ("Bl4", (LEFT, RING));
  ("Bl5", (LEFT, MIDDLE));
  ("Bl6", (LEFT, INDEX));
  ("Bl7", (LEFT, INDEX));
  ("Br6", (RIGHT, INDEX));
  ("Br5", (RIGHT, INDEX));
  ("Br4", (RIGHT, MIDDLE));
  ("Br3", (RIGHT, RING));
  ("Br2", (RIGHT, LITTLE));
  ("Br1", (RIGHT, LITTLE));
  ("Br_bs", (RIGHT, LITTLE));
  ("Cl_tab", (LEFT, LITTLE));
  ("Cl1", (LEFT, LITTLE));
  ("Cl2", (LEFT, RING));
  ("Cl3", (LEFT, MIDDLE));
  ("Cl4", (LEFT, INDEX));
  ("Cl5", (LEFT, INDEX));
  ("Cr7", (RIGHT, INDEX));
  ("Cr6", (RIGHT, INDEX));
  ("Cr5", (RIGHT, MIDDLE));
  ("Cr4", (RIGHT, RING));
  ("Cr3", (RIGHT, LITTLE));
  ("Cr2", (RIGHT, LITTLE));
  ("Cr1", (RIGHT, LITTLE));
  ("CD_ret", (RIGHT, LITTLE));
  ("Dl_caps", (LEFT, LITTLE));
  ("Dl1", (LEFT, LITTLE));
  ("Dl2", (LEFT, RING));
  ("Dl3", (LEFT, MIDDLE));
  ("Dl4", (LEFT, INDEX));
  ("Dl5", (LEFT, INDEX));
  ("Dr7", (RIGHT, INDEX));
  ("Dr6", (RIGHT, INDEX));
  ("Dr5", (RIGHT, MIDDLE));
  ("Dr4", (RIGHT, RING));
  ("Dr3", (RIGHT, LITTLE));
  ("Dr2", (RIGHT, LITTLE));
  ("Dr1", (RIGHT, LITTLE));
  ("El_shift", (LEFT, LITTLE));
  ("El1", (LEFT, LITTLE));
  ("El2", (LEFT, LITTLE));
  ("El3", (LEFT, RING));
  ("El4", (LEFT, MIDDLE));
  ("El5", (LEFT, INDEX));
  ("El6", (LEFT, INDEX));
  ("Er5", (RIGHT, INDEX));
  ("Er4", (RIGHT, INDEX));
  ("Er3", (RIGHT, MIDDLE));
  ("Er2", (RIGHT, RING));
  ("Er1", (RIGHT, LITTLE));
  ("Er_shift", (RIGHT, LITTLE));
  ("Fl_ctrl", (LEFT, LITTLE));
  ("Fl_fn", (LEFT, LITTLE));
  ("Fl_win", (LEFT, THUMB));
  ("Fl_alt", (LEFT, THUMB));
  ("Fl_space", (LEFT, THUMB));
  ("Fr_space", (RIGHT, THUMB));
  ("Fr_altgr", (RIGHT, THUMB));
  ("Fr_win", (RIGHT, THUMB));
  ("Fr_menu", (RIGHT, THUMB));
  ("Fr_ctrl", (RIGHT, LITTLE))
].
