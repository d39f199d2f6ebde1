(** Generated by tools/gen_data.py from lulua/data/keyboards/ibmpc105.yaml. Do not edit. *)
From Coq Require Import QArith.
From Verif Require Import Base KeyboardModel.
Open Scope string_scope.
Open Scope list_scope.

(** Statically known fields of a button: kind, name, width, isMarked, span,
    scancodes (keyman, macos, windows, xorg). *)
Record kbutton := mkKB {
  kb_kind : kind; kb_name : string; kb_width : Q; kb_marked : bool; kb_span : option Q;
  kb_keyman : string; kb_macos : option N; kb_windows : list N; kb_xorg : N }.

Definition ibmpc105 : list (list kbutton * list kbutton) := [
  ([mkKB Letter "Bl1" (1#1)%Q false None "K_BKSLASH" (Some 50%N) [41%N] 49;
     mkKB Letter "Bl2" (1#1)%Q false None "K_1" (Some 18%N) [2%N] 10;
     mkKB Letter "Bl3" (1#1)%Q false None "K_2" (Some 19%N) [3%N] 11;
     mkKB Letter "Bl4" (1#1)%Q false None "K_3" (Some 20%N) [4%N] 12;
     mkKB Letter "Bl5" (1#1)%Q false None "K_4" (Some 21%N) [5%N] 13;
     mkKB Letter "Bl6" (1#1)%Q false None "K_5" (Some 23%N) [6%N] 14;
     mkKB Letter "Bl7" (1#1)%Q false None "K_6" (Some 22%N) [7%N] 15],
   [mkKB Letter "Br6" (1#1)%Q false None "K_7" (Some 26%N) [8%N] 16;
     mkKB Letter "Br5" (1#1)%Q false None "K_8" (Some 28%N) [9%N] 17;
     mkKB Letter "Br4" (1#1)%Q false None "K_9" (Some 25%N) [10%N] 18;
     mkKB Letter "Br3" (1#1)%Q false None "K_0" (Some 29%N) [11%N] 19;
     mkKB Letter "Br2" (1#1)%Q false None "K_LBRKT" (Some 27%N) [12%N] 20;
     mkKB Letter "Br1" (1#1)%Q false None "K_RBRKT" (Some 24%N) [13%N] 21;
     mkKB Standard "Br_bs" (7#4)%Q false None "K_BKSP" (Some 51%N) [14%N] 22]);
  ([mkKB Standard "Cl_tab" (7#4)%Q false None "K_TAB" (Some 48%N) [15%N] 23;
     mkKB Letter "Cl1" (1#1)%Q false None "K_Q" (Some 12%N) [16%N] 24;
     mkKB Letter "Cl2" (1#1)%Q false None "K_W" (Some 13%N) [17%N] 25;
     mkKB Letter "Cl3" (1#1)%Q false None "K_E" (Some 14%N) [18%N] 26;
     mkKB Letter "Cl4" (1#1)%Q false None "K_R" (Some 15%N) [19%N] 27;
     mkKB Letter "Cl5" (1#1)%Q false None "K_T" (Some 17%N) [20%N] 28],
   [mkKB Letter "Cr7" (1#1)%Q false None "K_Z" (Some 16%N) [21%N] 29;
     mkKB Letter "Cr6" (1#1)%Q false None "K_U" (Some 32%N) [22%N] 30;
     mkKB Letter "Cr5" (1#1)%Q false None "K_I" (Some 34%N) [23%N] 31;
     mkKB Letter "Cr4" (1#1)%Q false None "K_O" (Some 31%N) [24%N] 32;
     mkKB Letter "Cr3" (1#1)%Q false None "K_P" (Some 35%N) [25%N] 33;
     mkKB Letter "Cr2" (1#1)%Q false None "K_COLON" (Some 33%N) [26%N] 34;
     mkKB Letter "Cr1" (1#1)%Q false None "K_EQUAL" (Some 30%N) [27%N] 35;
     mkKB Multi "CD_ret" (1#1)%Q false (Some (2#1)%Q) "K_ENTER" (Some 36%N) [28%N] 36]);
  ([mkKB Standard "Dl_caps" (2#1)%Q false None "CAPS" (Some 57%N) [58%N] 66;
     mkKB Letter "Dl1" (1#1)%Q false None "K_A" (Some 0%N) [30%N] 38;
     mkKB Letter "Dl2" (1#1)%Q false None "K_S" (Some 1%N) [31%N] 39;
     mkKB Letter "Dl3" (1#1)%Q false None "K_D" (Some 2%N) [32%N] 40;
     mkKB Letter "Dl4" (1#1)%Q true None "K_F" (Some 3%N) [33%N] 41;
     mkKB Letter "Dl5" (1#1)%Q false None "K_G" (Some 5%N) [34%N] 42],
   [mkKB Letter "Dr7" (1#1)%Q false None "K_H" (Some 4%N) [35%N] 43;
     mkKB Letter "Dr6" (1#1)%Q true None "K_J" (Some 38%N) [36%N] 44;
     mkKB Letter "Dr5" (1#1)%Q false None "K_K" (Some 40%N) [37%N] 45;
     mkKB Letter "Dr4" (1#1)%Q false None "K_L" (Some 37%N) [38%N] 46;
     mkKB Letter "Dr3" (1#1)%Q false None "K_BKQUOTE" (Some 41%N) [39%N] 47;
     mkKB Letter "Dr2" (1#1)%Q false None "K_QUOTE" (Some 39%N) [40%N] 48;
     mkKB Letter "Dr1" (1#1)%Q false None "K_SLASH" None [43%N] 51]);
  ([mkKB Standard "El_shift" (3#2)%Q false None "SHIFT" (Some 57%N) [42%N] 50;
     mkKB Letter "El1" (1#1)%Q false None "K_oE2" None [86%N] 94;
     mkKB Letter "El2" (1#1)%Q false None "K_Y" (Some 6%N) [44%N] 52;
     mkKB Letter "El3" (1#1)%Q false None "K_X" (Some 7%N) [45%N] 53;
     mkKB Letter "El4" (1#1)%Q false None "K_C" (Some 8%N) [46%N] 54;
     mkKB Letter "El5" (1#1)%Q false None "K_V" (Some 9%N) [47%N] 55;
     mkKB Letter "El6" (1#1)%Q false None "K_B" (Some 11%N) [48%N] 56],
   [mkKB Letter "Er5" (1#1)%Q false None "K_N" (Some 45%N) [49%N] 57;
     mkKB Letter "Er4" (1#1)%Q false None "K_M" (Some 46%N) [50%N] 58;
     mkKB Letter "Er3" (1#1)%Q false None "K_COMMA" (Some 43%N) [51%N] 59;
     mkKB Letter "Er2" (1#1)%Q false None "K_PERIOD" (Some 47%N) [52%N] 60;
     mkKB Letter "Er1" (1#1)%Q false None "K_HYPHEN" (Some 44%N) [53%N] 61;
     mkKB Standard "Er_shift" (47#20)%Q false None "SHIFT" (Some 60%N) [54%N] 62]);
  ([mkKB Standard "Fl_ctrl" (7#4)%Q false None "LCTRL" (Some 59%N) [29%N] 37;
     mkKB Standard "Fl_win" (5#4)%Q false None "K_?5B" (Some 55%N) [224%N; 91%N] 133;
     mkKB Standard "Fl_alt" (5#4)%Q false None "LALT" (Some 58%N) [56%N] 64;
     mkKB Standard "Fl_space" (3#1)%Q false None "K_SPACE" (Some 49%N) [57%N] 65],
   [mkKB Standard "Fr_space" (3#1)%Q false None "K_SPACE" (Some 49%N) [57%N] 65;
     mkKB Standard "Fr_altgr" (5#4)%Q false None "RALT" (Some 61%N) [224%N; 56%N] 108;
     mkKB Standard "Fr_win" (5#4)%Q false None "K_?5C" (Some 55%N) [224%N; 92%N] 105;
     mkKB Standard "Fr_menu" (5#4)%Q false None "K_?5D" None [224%N; 93%N] 135;
     mkKB Standard "Fr_ctrl" (5#4)%Q false None "RCTRL" None [224%N; 29%N] 105])
].
