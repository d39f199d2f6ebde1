(** Generated by tools/gen_data.py from lulua/winkbd.py. Do not edit. *)
From Verif Require Import Base.
Open Scope string_scope.
Open Scope list_scope.

(** winkbd.py:658-676 *)
Definition typedefs1 : string := ("
#include <wchar.h>

typedef struct {
    unsigned char Vk;
    unsigned char ModBits;
} VK_TO_BIT, *PVK_TO_BIT;

typedef struct {
    PVK_TO_BIT pVkToBit;
    unsigned short wMaxModBits;
    unsigned char ModNumber[];
} MODIFIERS, *PMODIFIERS;

typedef struct _VSC_VK {
    unsigned char Vsc;
    unsigned short Vk;
} VSC_VK, *PVSC_VK;
")%string.

(** winkbd.py:679-685: the pieces between the number of columns *)
Definition wcharsType : list string := [("
typedef struct _VK_TO_WCHARS")%string;
  (" {
    unsigned char VirtualKey;
    unsigned char Attributes;
    wchar_t wch[")%string;
  ("];
} VK_TO_WCHARS")%string;
  (", *PVK_TO_WCHARS")%string;
  (";
")%string].

(** winkbd.py:688-694 *)
Definition ligatureType : list string := [("
typedef struct _LIGATURE")%string;
  (" {
    unsigned char VirtualKey;
    unsigned short ModificationNumber;
    wchar_t wch[")%string;
  ("];
} LIGATURE")%string;
  (", *PLIGATURE")%string;
  (";
")%string].

(** winkbd.py:696-763 *)
Definition typedefs2 : string := ("
typedef struct _VK_TO_WCHAR_TABLE {
    PVK_TO_WCHARS1 pVkToWchars;
    unsigned char nModifications;
    unsigned char cbSize;
} VK_TO_WCHAR_TABLE, *PVK_TO_WCHAR_TABLE;

typedef struct {
    unsigned long dwBoth;
    wchar_t wchComposed;
    unsigned short uFlags;
} DEADKEY, *PDEADKEY;

typedef struct {
    unsigned char vsc;
    wchar_t *pwsz;
} VSC_LPWSTR, *PVSC_LPWSTR;

typedef struct tagKbdLayer {
    /*
     * Modifier keys
     */
    PMODIFIERS pCharModifiers;

    /*
     * Characters
     */
    PVK_TO_WCHAR_TABLE pVkToWcharTable;  // ptr to tbl of ptrs to tbl

    /*
     * Diacritics
     */
    PDEADKEY pDeadKey;

    /*
     * Names of Keys
     */
    PVSC_LPWSTR pKeyNames;
    PVSC_LPWSTR pKeyNamesExt;
    wchar_t **pKeyNamesDead;

    /*
     * Scan codes to Virtual Keys
     */
    unsigned short *pusVSCtoVK;
    unsigned char    bMaxVSCtoVK;
    PVSC_VK pVSCtoVK_E0;  // Scancode has E0 prefix
    PVSC_VK pVSCtoVK_E1;  // Scancode has E1 prefix

    /*
     * Locale-specific special processing
     */
    unsigned long fLocaleFlags;

    /*
     * Ligatures
     */
    unsigned char       nLgMax;
    unsigned char       cbLgEntry;
    PLIGATURE1 pLigature;

    /*
     * Type and subtype. These are optional.
     */
    unsigned long dwType;     // Keyboard Type
    unsigned long dwSubType;  // Keyboard SubType: may contain OemId
} KBDTABLES, *PKBDTABLES;
")%string.

(** winkbd.py:765-799 *)
Definition entrypoint : string := ("
#define KBD_VERSION (1)

static KBDTABLES KbdTables = {
    pCharModifiers: &CharModifiers,

    pVkToWcharTable: aVkToWcharTable,

    pDeadKey: NULL,

    pKeyNames: aKeyNames,
    pKeyNamesExt: aKeyNamesExt,
    pKeyNamesDead: NULL,

    pusVSCtoVK: ausVK,
    bMaxVSCtoVK: sizeof(ausVK) / sizeof(" ++ "*ausVK),
    pVSCtoVK_E0: aE0VscToVk,
    pVSCtoVK_E1: aE1VscToVk,

    fLocaleFlags: (0 & 0xffffUL) | ((KBD_VERSION & 0xffffUL) << 16),

    nLgMax: 0,
    cbLgEntry: 0,
    pLigature: NULL,

    dwType: 0,
    dwSubType: 0,
};

/* The main entry point of the driver
 */
PKBDTABLES KbdLayerDescriptor() {
    return &KbdTables;
}
")%string.
