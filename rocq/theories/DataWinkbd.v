(** Generated by tools/gen_data.py from lulua/winkbd.py. Do not edit. *)
From Verif Require Import Base.
Open Scope string_scope.
Open Scope list_scope.
Local Open Scope N_scope.

(** Attributes of the enumerations VirtualKey and VirtualKeyFlag. *)
Inductive sym := VK (n : string) | VF (n : string).

(** winkbd.py:36-227: vkval before numbers and letters are added *)
Definition vkval0 : list (string * N) := [
  ("LBUTTON", 1);
  ("RBUTTON", 2);
  ("CANCEL", 3);
  ("MBUTTON", 4);
  ("XBUTTON1", 5);
  ("XBUTTON2", 6);
  ("BACK", 8);
  ("TAB", 9);
  ("CLEAR", 12);
  ("RETURN", 13);
  ("SHIFT", 16);
  ("CONTROL", 17);
  ("MENU", 18);
  ("PAUSE", 19);
  ("CAPITAL", 20);
  ("KANA", 21);
  ("HANGEUL", 21);
  ("HANGUL", 21);
  ("JUNJA", 23);
  ("FINAL", 24);
  ("HANJA", 25);
  ("KANJI", 25);
  ("ESCAPE", 27);
  ("CONVERT", 28);
  ("NONCONVERT", 29);
  ("ACCEPT", 30);
  ("MODECHANGE", 31);
  ("SPACE", 32);
  ("PRIOR", 33);
  ("NEXT", 34);
  ("END", 35);
  ("HOME", 36);
  ("LEFT", 37);
  ("UP", 38);
  ("RIGHT", 39);
  ("DOWN", 40);
  ("SELECT", 41);
  ("PRINT", 42);
  ("EXECUTE", 43);
  ("SNAPSHOT", 44);
  ("INSERT", 45);
  ("DELETE", 46);
  ("HELP", 47);
  ("LWIN", 91);
  ("RWIN", 92);
  ("APPS", 93);
  ("SLEEP", 95);
  ("NUMPAD0", 96);
  ("NUMPAD1", 97);
  ("NUMPAD2", 98);
  ("NUMPAD3", 99);
  ("NUMPAD4", 100);
  ("NUMPAD5", 101);
  ("NUMPAD6", 102);
  ("NUMPAD7", 103);
  ("NUMPAD8", 104);
  ("NUMPAD9", 105);
  ("MULTIPLY", 106);
  ("ADD", 107);
  ("SEPARATOR", 108);
  ("SUBTRACT", 109);
  ("DECIMAL", 110);
  ("DIVIDE", 111);
  ("F1", 112);
  ("F2", 113);
  ("F3", 114);
  ("F4", 115);
  ("F5", 116);
  ("F6", 117);
  ("F7", 118);
  ("F8", 119);
  ("F9", 120);
  ("F10", 121);
  ("F11", 122);
  ("F12", 123);
  ("F13", 124);
  ("F14", 125);
  ("F15", 126);
  ("F16", 127);
  ("F17", 128);
  ("F18", 129);
  ("F19", 130);
  ("F20", 131);
  ("F21", 132);
  ("F22", 133);
  ("F23", 134);
  ("F24", 135);
  ("NUMLOCK", 144);
  ("SCROLL", 145);
  ("OEM_NEC_EQUAL", 146);
  ("OEM_FJ_JISHO", 146);
  ("OEM_FJ_MASSHOU", 147);
  ("OEM_FJ_TOUROKU", 148);
  ("OEM_FJ_LOYA", 149);
  ("OEM_FJ_ROYA", 150);
  ("LSHIFT", 160);
  ("RSHIFT", 161);
  ("LCONTROL", 162);
  ("RCONTROL", 163);
  ("LMENU", 164);
  ("RMENU", 165);
  ("BROWSER_BACK", 166);
  ("BROWSER_FORWARD", 167);
  ("BROWSER_REFRESH", 168);
  ("BROWSER_STOP", 169);
  ("BROWSER_SEARCH", 170);
  ("BROWSER_FAVORITES", 171);
  ("BROWSER_HOME", 172);
  ("VOLUME_MUTE", 173);
  ("VOLUME_DOWN", 174);
  ("VOLUME_UP", 175);
  ("MEDIA_NEXT_TRACK", 176);
  ("MEDIA_PREV_TRACK", 177);
  ("MEDIA_STOP", 178);
  ("MEDIA_PLAY_PAUSE", 179);
  ("LAUNCH_MAIL", 180);
  ("LAUNCH_MEDIA_SELECT", 181);
  ("LAUNCH_APP1", 182);
  ("LAUNCH_APP2", 183);
  ("OEM_1", 186);
  ("OEM_PLUS", 187);
  ("OEM_COMMA", 188);
  ("OEM_MINUS", 189);
  ("OEM_PERIOD", 190);
  ("OEM_2", 191);
  ("OEM_3", 192);
  ("ABNT_C1", 193);
  ("ABNT_C2", 194);
  ("OEM_4", 219);
  ("OEM_5", 220);
  ("OEM_6", 221);
  ("OEM_7", 222);
  ("OEM_8", 223);
  ("OEM_AX", 225);
  ("OEM_102", 226);
  ("ICO_HELP", 227);
  ("ICO_00", 228);
  ("PROCESSKEY", 229);
  ("ICO_CLEAR", 230);
  ("PACKET", 231);
  ("OEM_RESET", 233);
  ("OEM_JUMP", 234);
  ("OEM_PA1", 235);
  ("OEM_PA2", 236);
  ("OEM_PA3", 237);
  ("OEM_WSCTRL", 238);
  ("OEM_CUSEL", 239);
  ("OEM_ATTN", 240);
  ("OEM_FINISH", 241);
  ("OEM_COPY", 242);
  ("OEM_AUTO", 243);
  ("OEM_ENLW", 244);
  ("OEM_BACKTAB", 245);
  ("ATTN", 246);
  ("CRSEL", 247);
  ("EXSEL", 248);
  ("EREOF", 249);
  ("PLAY", 250);
  ("ZOOM", 251);
  ("NONAME", 252);
  ("PA1", 253);
  ("OEM_CLEAR", 254);
  ("NULL", 255)].

(** winkbd.py:237-247: VirtualKeyFlag *)
Definition vkflags : list (string * N) := [("EXT", 256); ("MULTIVK", 512); ("SPECIAL", 1024); ("NUMPAD", 2048); ("UNICODE", 4096); ("INJECTEDVK", 8192); ("MAPPEDVK", 16384); ("BREAK", 32768)].

(** winkbd.py:254-415: qwertyScancodeToVk *)
Definition qwertyScancodeToVk : list (list N * list sym) := [
  ([1], [VK "ESCAPE"]);
  ([2], [VK "NUMBER1"]);
  ([3], [VK "NUMBER2"]);
  ([4], [VK "NUMBER3"]);
  ([5], [VK "NUMBER4"]);
  ([6], [VK "NUMBER5"]);
  ([7], [VK "NUMBER6"]);
  ([8], [VK "NUMBER7"]);
  ([9], [VK "NUMBER8"]);
  ([10], [VK "NUMBER9"]);
  ([11], [VK "NUMBER0"]);
  ([12], [VK "OEM_MINUS"]);
  ([13], [VK "OEM_PLUS"]);
  ([14], [VK "BACK"]);
  ([15], [VK "TAB"]);
  ([16], [VK "Q"]);
  ([17], [VK "W"]);
  ([18], [VK "E"]);
  ([19], [VK "R"]);
  ([20], [VK "T"]);
  ([21], [VK "Y"]);
  ([22], [VK "U"]);
  ([23], [VK "I"]);
  ([24], [VK "O"]);
  ([25], [VK "P"]);
  ([26], [VK "OEM_4"]);
  ([27], [VK "OEM_6"]);
  ([28], [VK "RETURN"]);
  ([29], [VK "LCONTROL"]);
  ([30], [VK "A"]);
  ([31], [VK "S"]);
  ([32], [VK "D"]);
  ([33], [VK "F"]);
  ([34], [VK "G"]);
  ([35], [VK "H"]);
  ([36], [VK "J"]);
  ([37], [VK "K"]);
  ([38], [VK "L"]);
  ([39], [VK "OEM_1"]);
  ([40], [VK "OEM_7"]);
  ([41], [VK "OEM_3"]);
  ([42], [VK "LSHIFT"]);
  ([43], [VK "OEM_5"]);
  ([44], [VK "Z"]);
  ([45], [VK "X"]);
  ([46], [VK "C"]);
  ([47], [VK "V"]);
  ([48], [VK "B"]);
  ([49], [VK "N"]);
  ([50], [VK "M"]);
  ([51], [VK "OEM_COMMA"]);
  ([52], [VK "OEM_PERIOD"]);
  ([53], [VK "OEM_2"]);
  ([54], [VK "RSHIFT"; VF "EXT"]);
  ([55], [VK "MULTIPLY"; VF "MULTIVK"]);
  ([56], [VK "LMENU"]);
  ([57], [VK "SPACE"]);
  ([58], [VK "CAPITAL"]);
  ([59], [VK "F1"]);
  ([60], [VK "F2"]);
  ([61], [VK "F3"]);
  ([62], [VK "F4"]);
  ([63], [VK "F5"]);
  ([64], [VK "F6"]);
  ([65], [VK "F7"]);
  ([66], [VK "F8"]);
  ([67], [VK "F9"]);
  ([68], [VK "F10"]);
  ([69], [VK "NUMLOCK"; VF "EXT"; VF "MULTIVK"]);
  ([70], [VK "SCROLL"; VF "MULTIVK"]);
  ([71], [VK "HOME"; VF "NUMPAD"; VF "SPECIAL"]);
  ([72], [VK "UP"; VF "NUMPAD"; VF "SPECIAL"]);
  ([73], [VK "PRIOR"; VF "NUMPAD"; VF "SPECIAL"]);
  ([74], [VK "SUBTRACT"]);
  ([75], [VK "LEFT"; VF "NUMPAD"; VF "SPECIAL"]);
  ([76], [VK "CLEAR"; VF "NUMPAD"; VF "SPECIAL"]);
  ([77], [VK "RIGHT"; VF "NUMPAD"; VF "SPECIAL"]);
  ([78], [VK "ADD"]);
  ([79], [VK "END"; VF "NUMPAD"; VF "SPECIAL"]);
  ([80], [VK "DOWN"; VF "NUMPAD"; VF "SPECIAL"]);
  ([81], [VK "NEXT"; VF "NUMPAD"; VF "SPECIAL"]);
  ([82], [VK "INSERT"; VF "NUMPAD"; VF "SPECIAL"]);
  ([83], [VK "DELETE"; VF "NUMPAD"; VF "SPECIAL"]);
  ([84], [VK "SNAPSHOT"]);
  ([86], [VK "OEM_102"]);
  ([87], [VK "F11"]);
  ([88], [VK "F12"]);
  ([89], [VK "CLEAR"]);
  ([90], [VK "OEM_WSCTRL"]);
  ([91], [VK "OEM_FINISH"]);
  ([92], [VK "OEM_JUMP"]);
  ([93], [VK "EREOF"]);
  ([94], [VK "OEM_BACKTAB"]);
  ([95], [VK "OEM_AUTO"]);
  ([98], [VK "ZOOM"]);
  ([99], [VK "HELP"]);
  ([100], [VK "F13"]);
  ([101], [VK "F14"]);
  ([102], [VK "F15"]);
  ([103], [VK "F16"]);
  ([104], [VK "F17"]);
  ([105], [VK "F18"]);
  ([106], [VK "F19"]);
  ([107], [VK "F20"]);
  ([108], [VK "F21"]);
  ([109], [VK "F22"]);
  ([110], [VK "F23"]);
  ([111], [VK "OEM_PA3"]);
  ([113], [VK "OEM_RESET"]);
  ([115], [VK "ABNT_C1"]);
  ([118], [VK "F24"]);
  ([123], [VK "OEM_PA1"]);
  ([124], [VK "TAB"]);
  ([126], [VK "ABNT_C2"]);
  ([127], [VK "OEM_PA2"]);
  ([224; 16], [VK "MEDIA_PREV_TRACK"; VF "EXT"]);
  ([224; 25], [VK "MEDIA_NEXT_TRACK"; VF "EXT"]);
  ([224; 28], [VK "RETURN"; VF "EXT"]);
  ([224; 29], [VK "RCONTROL"; VF "EXT"]);
  ([224; 32], [VK "VOLUME_MUTE"; VF "EXT"]);
  ([224; 33], [VK "LAUNCH_APP2"; VF "EXT"]);
  ([224; 34], [VK "MEDIA_PLAY_PAUSE"; VF "EXT"]);
  ([224; 36], [VK "MEDIA_STOP"; VF "EXT"]);
  ([224; 46], [VK "VOLUME_DOWN"; VF "EXT"]);
  ([224; 48], [VK "VOLUME_UP"; VF "EXT"]);
  ([224; 50], [VK "BROWSER_HOME"; VF "EXT"]);
  ([224; 53], [VK "DIVIDE"; VF "EXT"]);
  ([224; 55], [VK "SNAPSHOT"; VF "EXT"]);
  ([224; 56], [VK "RMENU"; VF "EXT"]);
  ([224; 70], [VK "CANCEL"; VF "EXT"]);
  ([224; 71], [VK "HOME"; VF "EXT"]);
  ([224; 72], [VK "UP"; VF "EXT"]);
  ([224; 73], [VK "PRIOR"; VF "EXT"]);
  ([224; 75], [VK "LEFT"; VF "EXT"]);
  ([224; 77], [VK "RIGHT"; VF "EXT"]);
  ([224; 79], [VK "END"; VF "EXT"]);
  ([224; 80], [VK "DOWN"; VF "EXT"]);
  ([224; 81], [VK "NEXT"; VF "EXT"]);
  ([224; 82], [VK "INSERT"; VF "EXT"]);
  ([224; 83], [VK "DELETE"; VF "EXT"]);
  ([224; 91], [VK "LWIN"; VF "EXT"]);
  ([224; 92], [VK "RWIN"; VF "EXT"]);
  ([224; 93], [VK "APPS"; VF "EXT"]);
  ([224; 95], [VK "SLEEP"; VF "EXT"]);
  ([224; 101], [VK "BROWSER_SEARCH"; VF "EXT"]);
  ([224; 102], [VK "BROWSER_FAVORITES"; VF "EXT"]);
  ([224; 103], [VK "BROWSER_REFRESH"; VF "EXT"]);
  ([224; 104], [VK "BROWSER_STOP"; VF "EXT"]);
  ([224; 105], [VK "BROWSER_FORWARD"; VF "EXT"]);
  ([224; 106], [VK "BROWSER_BACK"; VF "EXT"]);
  ([224; 107], [VK "LAUNCH_APP1"; VF "EXT"]);
  ([224; 108], [VK "LAUNCH_MAIL"; VF "EXT"]);
  ([224; 109], [VK "LAUNCH_MEDIA_SELECT"; VF "EXT"]);
  ([225; 29], [VK "PAUSE"])].

(** winkbd.py:457-533: qwertyScancodeToName *)
Definition qwertyScancodeToName : list (list N * string) := [
  ([1], "Esc");
  ([14], "Backspace");
  ([15], "Tab");
  ([28], "Enter");
  ([29], "Ctrl");
  ([42], "Shift");
  ([54], "Right Shift");
  ([55], "Num *");
  ([56], "Alt");
  ([57], "Space");
  ([58], "Caps Lock");
  ([59], "F1");
  ([60], "F2");
  ([61], "F3");
  ([62], "F4");
  ([63], "F5");
  ([64], "F6");
  ([65], "F7");
  ([66], "F8");
  ([67], "F9");
  ([68], "F10");
  ([69], "Pause");
  ([70], "Scroll Lock");
  ([71], "Num 7");
  ([72], "Num 8");
  ([73], "Num 9");
  ([74], "Num -");
  ([75], "Num 4");
  ([76], "Num 5");
  ([77], "Num 6");
  ([78], "Num +");
  ([79], "Num 1");
  ([80], "Num 2");
  ([81], "Num 3");
  ([82], "Num 0");
  ([83], "Num Del");
  ([84], "Sys Req");
  ([87], "F11");
  ([88], "F12");
  ([124], "F13");
  ([125], "F14");
  ([126], "F15");
  ([127], "F16");
  ([128], "F17");
  ([129], "F18");
  ([130], "F19");
  ([131], "F20");
  ([132], "F21");
  ([133], "F22");
  ([134], "F23");
  ([135], "F24");
  ([224; 28], "Num Enter");
  ([224; 29], "Right Ctrl");
  ([224; 53], "Num /");
  ([224; 55], "Prnt Scrn");
  ([224; 56], "Right Alt");
  ([224; 69], "Num Lock");
  ([224; 70], "Break");
  ([224; 71], "Home");
  ([224; 72], "Up");
  ([224; 73], "Page Up");
  ([224; 75], "Left");
  ([224; 77], "Right");
  ([224; 79], "End");
  ([224; 80], "Down");
  ([224; 81], "Page Down");
  ([224; 82], "Insert");
  ([224; 83], "Delete");
  ([224; 84], "<00>");
  ([224; 86], "Help");
  ([224; 91], "Left Windows");
  ([224; 92], "Right Windows");
  ([224; 93], "Application")].
