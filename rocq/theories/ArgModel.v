(** Command lines: the part of argparse (Python 3.11) the programs use, and their parsers. *)
From Coq Require Import Ascii.
From Verif Require Import Base.
Open Scope string_scope.
Open Scope list_scope.
Unset Implicit Arguments.

(** * argparse *)
(** ArgumentError and the like end the program with status 2, help with status 0. *)
Inductive exit := Usage | Help | FormatError.
Inductive out (A : Type) := Done (a : A) | Exit (e : exit) | Fuel.
Arguments Done {A} a. Arguments Exit {A} e. Arguments Fuel {A}.
Definition obind {A B} (m : out A) (f : A -> out B) : out B := match m with Done a => f a | Exit e => Exit e | Fuel => Fuel end.
Notation "'let!' x := m 'in' f" := (obind m (fun x => f)) (at level 200, x pattern, m at level 100, f at level 200).

(** Functions given as type; files are opened by them. *)
Inductive conv := CStr | CInt | CFloat | CFile | CYaml | CPin | CMutation.
Inductive value := VNone | VBool (b : bool) | VConst (s : string) | VConv (c : conv) (s : string) | VList (l : list value).
Inductive nargs := N0 | N1 | NPlus | NParser.
Inductive kind := Store | StoreTrue | Append | ShowHelp | Subs.
Record action := mkAction {
  a_opts : list string; a_dest : string; a_nargs : nargs; a_kind : kind; a_conv : conv;
  a_choices : option (list string); a_default : option value; a_required : bool; a_help : string }.
(** A parser without subparsers, and one that may have some *)
Record parser := mkParser { p_actions : list action; p_defaults : list (string * value) }.
Record program := mkProgram { pr_main : parser; pr_subs : list (string * parser) }.
Definition namespace := list (string * value).

(** str.partition ('=') *)
Fixpoint partition_eq (s : string) : string * option string :=
  match s with
  | EmptyString => (EmptyString, None)
  | String c s' => if Ascii.eqb c "=" then (EmptyString, Some s') else let (a, b) := partition_eq s' in (String c a, b)
  end.
Definition starts_dash (s : string) : bool := match s with String c _ => Ascii.eqb c "-" | EmptyString => false end.
Fixpoint has_space (s : string) : bool := match s with EmptyString => false | String c s' => Ascii.eqb c " " || has_space s' end.
Definition is_digit (c : ascii) : bool := let n := nat_of_ascii c in Nat.leb 48 n && Nat.leb n 57.
Fixpoint all_digits (s : string) : bool := match s with EmptyString => true | String c s' => is_digit c && all_digits s' end.
Fixpoint digits_dot (s : string) : bool :=
  match s with
  | EmptyString => false
  | String c s' => if Ascii.eqb c "." then negb (String.eqb s' "") && all_digits s' else is_digit c && digits_dot s'
  end.
(** _negative_number_matcher *)
Definition negative_number (s : string) : bool :=
  match s with String c s' => Ascii.eqb c "-" && ((negb (String.eqb s' "") && all_digits s') || digits_dot s') | EmptyString => false end.

(** What an argument is: '-', 'A' or 'O' with action, option string, whether there is a separator, explicit argument *)
Inductive tag := TDash | TArg | TOpt (a : option action) (o : string) (sep : bool) (e : option string).
Definition find_opt (p : parser) (o : string) : option action := find (fun a => mem o (a_opts a)) (p_actions p).
(** _get_option_tuples *)
Definition option_tuples (p : parser) (s : string) : list tag :=
  match s with
  | String _ (String c rest) =>
      if Ascii.eqb c "-" then
        let (pre, e) := partition_eq s in
        flat_map (fun a => flat_map (fun o => if String.prefix pre o then [TOpt (Some a) o (match e with Some _ => true | None => false end) e] else []) (a_opts a)) (p_actions p)
      else
        flat_map (fun a => flat_map (fun o =>
          if String.eqb o (String "-" (String c "")) then [TOpt (Some a) o false (Some rest)]
          else if String.prefix s o then [TOpt (Some a) o false None] else []) (a_opts a)) (p_actions p)
  | _ => []
  end.
(** _parse_optional *)
Definition parse_optional (p : parser) (s : string) : out tag :=
  if negb (starts_dash s) then Done TArg
  else match find_opt p s with
  | Some a => Done (TOpt (Some a) s false None)
  | None =>
    if String.eqb s "-" then Done TArg
    else match (let (o, e) := partition_eq s in match e, find_opt p o with Some x, Some a => Some (TOpt (Some a) o true (Some x)) | _, _ => None end) with
    | Some t => Done t
    | None =>
      match option_tuples p s with
      | [t] => Done t
      | _ :: _ :: _ => Exit Usage
      | [] => if negative_number s || has_space s then Done TArg else Done (TOpt None s false None)
      end
    end
  end.
(** _parse_known_args: the pattern *)
Fixpoint tags (p : parser) (args : list string) : out (list (string * tag)) :=
  match args with
  | [] => Done []
  | s :: args' =>
      if String.eqb s "--" then Done ((s, TDash) :: map (fun x => (x, TArg)) args')
      else let! t := parse_optional p s in let! r := tags p args' in Done ((s, t) :: r)
  end.

Definition is_opt (t : tag) : bool := match t with TOpt _ _ _ _ => true | _ => false end.
Definition is_arg (t : tag) : bool := match t with TArg => true | _ => false end.
Definition is_dash (t : tag) : bool := match t with TDash => true | _ => false end.
(** Lengths of the prefixes matched by the pattern of a positional, longest first *)
Definition pos_ok (n : nargs) (ts : list tag) : bool :=
  let fix skip l := match l with TDash :: l' => skip l' | _ => l end in
  match n with
  | N0 => forallb is_dash ts
  | N1 => match skip ts with TArg :: r => forallb is_dash r | _ => false end
  | NPlus => match skip ts with TArg :: r => forallb (fun t => negb (is_opt t)) r | _ => false end
  | NParser => match skip ts with TArg :: _ => true | _ => false end
  end.
Definition lengths (n : nargs) (ts : list tag) : list nat :=
  filter (fun k => pos_ok n (firstn k ts)) (rev (seq 0 (S (List.length ts)))).
(** re.match of several positionals: the first match found by backtracking *)
Fixpoint match_all (ns : list nargs) (ts : list tag) : option (list nat) :=
  match ns with
  | [] => Some []
  | n :: ns' =>
      (fix try (ks : list nat) := match ks with
        | [] => None
        | k :: ks' => match match_all ns' (skipn k ts) with Some r => Some (k :: r) | None => try ks' end
        end) (lengths n ts)
  end.
(** _match_arguments_partial *)
Fixpoint match_partial (fuel : nat) (ns : list nargs) (ts : list tag) : list nat :=
  match fuel with
  | O => []
  | S fuel' => match match_all (firstn fuel ns) ts with Some r => r | None => match_partial fuel' ns ts end
  end.
(** _match_argument of an optional *)
Definition match_opt (n : nargs) (ts : list tag) : option nat :=
  let fix run l := match l with TArg :: l' => S (run l') | _ => O end in
  match n with
  | N0 => Some 0
  | N1 => match ts with TArg :: _ => Some 1 | _ => None end
  | NPlus => match run ts with O => None | k => Some k end
  | NParser => None
  end.

Fixpoint remove_first (x : string) (l : list string) : list string :=
  match l with [] => [] | y :: l' => if String.eqb x y then l' else y :: remove_first x l' end.
(** str % dict, as needed for help texts: a percent sign has to be followed by another one or a key *)
Fixpoint format_ok (s : string) : bool :=
  match s with
  | String "%" (String "%" s') => format_ok s'
  | String "%" _ => false
  | String _ s' => format_ok s'
  | EmptyString => true
  end.

Section Parse.
  (** Which strings the functions given as type accept *)
  Variable accepts : conv -> string -> bool.
  Definition convert (a : action) (s : string) : out value :=
    if match a_conv a with CStr => true | c => accepts c s end then
      if match a_choices a with Some l => mem s l | None => true end then Done (VConv (a_conv a) s) else Exit Usage
    else Exit Usage.
  Fixpoint omapM {A B} (f : A -> out B) (l : list A) : out (list B) :=
    match l with [] => Done [] | x :: l' => let! y := f x in let! r := omapM f l' in Done (y :: r) end.
  (** _get_values, for everything but subparsers *)
  Definition get_values (a : action) (args : list string) : out value :=
    let args := match a_opts a with [] => remove_first "--" args | _ => args end in
    match a_nargs a, args with
    | N1, [s] => convert a s
    | _, _ => let! l := omapM (convert a) args in Done (VList l)
    end.
  (** State: namespace, actions seen, extras *)
  Record st := mkSt { s_ns : namespace; s_seen : list string; s_extras : list string }.
  (** Calling a subparser: what it adds to the namespace, and arguments it did not recognize *)
  Definition subcall := string -> list string -> out (namespace * list string).
  Definition help_exit (p : parser) : exit := if forallb (fun a => format_ok (a_help a)) (p_actions p) then Help else FormatError.
  (** take_action *)
  Definition take (p : parser) (sub : subcall) (a : action) (args : list string) (s : st) : out st :=
    let seen := a_dest a :: s_seen s in
    match a_kind a with
    | ShowHelp => Exit (help_exit p)
    | StoreTrue => Done (mkSt (dset (s_ns s) (a_dest a) (VBool true)) seen (s_extras s))
    | Store => let! v := get_values a args in Done (mkSt (dset (s_ns s) (a_dest a) v) seen (s_extras s))
    | Append => let! v := get_values a args in
        Done (mkSt (dset (s_ns s) (a_dest a) (VList (match dget (s_ns s) (a_dest a) with Some (VList l) => l ++ [v] | _ => [v] end))) seen (s_extras s))
    | Subs => match args with
        | name :: rest => let! (ns, ex) := sub name rest in
            Done (mkSt (fold_left (fun n kv => dset n (fst kv) (snd kv)) ns (s_ns s)) seen (s_extras s ++ ex))
        | [] => Exit Usage
        end
    end.
  (** consume_positionals: positionals left, arguments left *)
  Fixpoint take_pos (p : parser) (sub : subcall) (ps : list action) (ks : list nat) (l : list (string * tag)) (s : st) : out (list action * list (string * tag) * st) :=
    match ps, ks with
    | a :: ps', k :: ks' => let! s' := take p sub a (map fst (firstn k l)) s in take_pos p sub ps' ks' (skipn k l) s'
    | _, _ => Done (ps, l, s)
    end.
  Definition consume_positionals (p : parser) (sub : subcall) (ps : list action) (l : list (string * tag)) (s : st) :=
    take_pos p sub ps (match_partial (List.length ps) (map a_nargs ps) (map snd l)) l s.
  (** consume_optional: the options of one argument *)
  Fixpoint opt_chain (p : parser) (a : action) (o : string) (sep : bool) (e : string) (l : list (string * tag)) (acc : list (action * list string)) {struct e}
    : out (list (action * list string) * option string * list (string * tag)) :=
    match a_nargs a with
    | N0 =>
        match o, e with
        | String _ (String c _), String d e' =>
            if Ascii.eqb c "-" then Exit Usage
            else if sep || Ascii.eqb d "-" then Exit Usage
            else
              let acc := acc ++ [(a, [])] in
              match find_opt p (String "-" (String d "")) with
              | None => Done (acc, Some (String "-" e), l)
              | Some b =>
                  match e' with
                  | EmptyString =>
                      match match_opt (a_nargs b) (map snd l) with
                      | Some k => Done (acc ++ [(b, map fst (firstn k l))], None, skipn k l)
                      | None => Exit Usage
                      end
                  | String f e'' =>
                      if Ascii.eqb f "=" then opt_chain p b (String "-" (String d "")) true e'' l acc
                      else opt_chain p b (String "-" (String d "")) false e' l acc
                  end
              end
        | _, _ => Exit Usage
        end
    | _ => Done (acc ++ [(a, [e])], None, l)
    end.
  Definition consume_optional (p : parser) (sub : subcall) (arg : string) (t : tag) (l : list (string * tag)) (s : st) : out (list (string * tag) * st) :=
    match t with
    | TOpt None _ _ _ => Done (l, mkSt (s_ns s) (s_seen s) (s_extras s ++ [arg]))
    | TOpt (Some a) o sep e =>
        let! (acts, extra, l') := match e with
          | Some x => opt_chain p a o sep x l []
          | None => match match_opt (a_nargs a) (map snd l) with Some k => Done ([(a, map fst (firstn k l))], None, skipn k l) | None => Exit Usage end
          end in
        let s := mkSt (s_ns s) (s_seen s) (s_extras s ++ match extra with Some x => [x] | None => [] end) in
        let! s' := fold_left (fun m ar => let! s := m in take p sub (fst ar) (snd ar) s) acts (Done s) in
        Done (l', s')
    | _ => Done (l, s)
    end.
  (** Arguments before the next option, and from it on *)
  Fixpoint upto_opt (l : list (string * tag)) : list string * list (string * tag) :=
    match l with
    | [] => ([], [])
    | (x, t) :: l' => if is_opt t then ([], l) else let (a, b) := upto_opt l' in (x :: a, b)
    end.
  (** The loop of _parse_known_args *)
  Fixpoint parse_loop (fuel : nat) (p : parser) (sub : subcall) (ps : list action) (l : list (string * tag)) (s : st) : out (list action * list (string * tag) * st) :=
    if negb (existsb (fun x => is_opt (snd x)) l) then consume_positionals p sub ps l s
    else match fuel with
    | O => Fuel
    | S fuel' =>
        match l with
        | (arg, TOpt a o sep e) :: l' => let! (l2, s2) := consume_optional p sub arg (TOpt a o sep e) l' s in parse_loop fuel' p sub ps l2 s2
        | _ =>
            let! (ps2, l2, s2) := consume_positionals p sub ps l s in
            if Nat.ltb (List.length l2) (List.length l) then parse_loop fuel' p sub ps2 l2 s2
            else let (ex, l3) := upto_opt l2 in
              match l3 with
              | (arg, t) :: l4 => let! (l5, s5) := consume_optional p sub arg t l4 (mkSt (s_ns s2) (s_seen s2) (s_extras s2 ++ ex)) in parse_loop fuel' p sub ps2 l5 s5
              | [] => Fuel
              end
        end
    end.
  Definition initial (p : parser) : namespace :=
    fold_left (fun n kv => if dhas n (fst kv) then n else dset n (fst kv) (snd kv)) (p_defaults p)
      (fold_left (fun n a => match a_default a with Some v => if dhas n (a_dest a) then n else dset n (a_dest a) v | None => n end) (p_actions p) []).
  Definition positionals (p : parser) : list action := filter (fun a => match a_opts a with [] => true | _ => false end) (p_actions p).
  (** parse_known_args *)
  Definition parse_known (p : parser) (sub : subcall) (args : list string) : out (namespace * list string) :=
    let! l := tags p args in
    let! (_, l2, s) := parse_loop (S (List.length l)) p sub (positionals p) l (mkSt (initial p) [] []) in
    if forallb (fun a => negb (a_required a) || mem (a_dest a) (s_seen s)) (p_actions p) then Done (s_ns s, s_extras s ++ map fst l2) else Exit Usage.
  Definition no_sub : subcall := fun _ _ => Exit Usage.
  (** _SubParsersAction.__call__ *)
  Definition subs_of (pr : program) : subcall := fun name rest =>
    match dget (pr_subs pr) name with Some p => parse_known p no_sub rest | None => Exit Usage end.
  (** parse_args *)
  Definition parse_args (pr : program) (args : list string) : out namespace :=
    let! (ns, ex) := parse_known (pr_main pr) (subs_of pr) args in
    match ex with [] => Done ns | _ => Exit Usage end.
End Parse.

(** * The parsers *)
Definition opt (opts : list string) (dest : string) (c : conv) (d : value) (help : string) : action := mkAction opts dest N1 Store c None (Some d) false help.
Definition flag (opts : list string) (dest help : string) : action := mkAction opts dest N0 StoreTrue CStr None (Some (VBool false)) false help.
Definition pos (dest help : string) : action := mkAction [] dest N1 Store CStr None (Some VNone) true help.
Definition help_action : action := mkAction ["-h"; "--help"] "help" N0 ShowHelp CStr None None false "show this help message and exit".
(** Name of the subparsers: dest is SUPPRESS. *)
Definition sub_dest : string := "==SUPPRESS==".
Definition sub_action : action := mkAction [] sub_dest NParser Subs CStr None None false "".
Definition strv (s : string) : value := VConv CStr s.
Definition layout_opt : action := opt ["-l"; "--layout"] "layout" CStr VNone "Keyboard layout name".
Definition keyboard_opt : action := opt ["-k"; "--keyboard"] "keyboard" CStr (strv "ibmpc105") "Physical keyboard name".
Definition func (f : string) : list (string * value) := [("func", VConst f)].
Definition command (name f : string) (acts : list action) : string * parser := (name, mkParser (help_action :: acts) (func f)).

(** stats.py:409-446: lulua-analyze *)
Definition analyze_program : program := mkProgram
  (mkParser [help_action; layout_opt; keyboard_opt; sub_action] [])
  [command "pretty" "pretty" [];
   command "combine" "combine" [];
   command "letterfreq" "letterfreq" [];
   command "triadfreq" "triadfreq" [
     opt ["-c"; "--cutoff"] "cutoff" CFloat (VConst "0.5") "Only include the top x% of all triads";
     flag ["-r"; "--reverse"] "reverse" "Reverse sorting order";
     mkAction ["-s"; "--sort"] "sort" N1 Store CStr (Some ["weight"; "effort"; "combined"]) (Some (strv "weight")) false "Sorter";
     opt ["-n"; "--limit"] "limit" CInt (VConst "0") "Sorter"];
   command "triadeffortdata" "triadEffortData" [];
   command "triadeffortplot" "triadEffortPlot" [];
   command "keyheatmap" "keyHeatmap" [];
   command "layoutstats" "layoutstats" [];
   command "latinime" "latinImeDict" [];
   command "corpusstats" "corpusStats" [mkAction [] "metadata" N1 Store CFile None (Some VNone) true ""]].
(** render.py:594-631: lulua-render *)
Definition render_program : program := mkProgram
  (mkParser [help_action; layout_opt; keyboard_opt; sub_action; pos "output" "Output file"] [])
  [command "svg" "renderSvg" [
     opt ["-s"; "--style"] "style" CFile (VConst "data/render-svg.css") "Include external stylesheet into SVG";
     opt ["--heatmap"] "heatmap" CYaml VNone "Highlight keys based on heatmap data"];
   command "xmodmap" "renderXmodmap" [];
   command "keyman" "renderKeyman" [];
   command "ask" "renderAsk" [];
   command "winkbd" "renderWinKbd" [];
   command "keylayout" "renderKeylayout" [];
   command "klavaro" "renderKlavaro" []].
(** report.py:63-68: lulua-report *)
Definition report_program : program := mkProgram
  (mkParser [help_action;
    mkAction ["-c"; "--corpus"] "corpus" NPlus Store CStr None (Some VNone) false "Corpus metadata files";
    mkAction ["-l"; "--layoutstats"] "layoutstats" NPlus Store CStr None (Some VNone) false "Layout statistics files"] []) [].
(** layout.py:352-361: lulua-import *)
Definition import_program : program := mkProgram
  (mkParser [help_action; pos "input" "Input file"; sub_action] [])
  [command "klc" "importKlc" []].
(** carpalx.py:46-190: keys of models *)
Definition model_names : list string := ["mod01"; "salvo"].
(** optimize.py:269-282: lulua-optimize *)
Definition optimize_program : program := mkProgram
  (mkParser [help_action; layout_opt; keyboard_opt;
    opt ["--triad-limit"] "triadLimit" CInt (VConst "0") "Limit number of triads to use";
    opt ["-n"; "--steps"] "steps" CInt (VConst "10000") "Number of iterations";
    flag ["-r"; "--randomize"] "randomize" "Randomize layout before optimizing";
    opt ["-p"; "--pin"] "pin" CPin (VList []) "Pin these layers/buttons";
    mkAction ["-m"; "--model"] "model" N1 Store CStr (Some model_names) (Some (strv "mod01")) false "Carpalx model";
    mkAction ["-s"; "--mutate"] "mutate" N1 Append CMutation None (Some (VList [])) false "Apply these mutations"] []) [].
(** text.py:276-290: filterAvail *)
Definition filterAvail : list string :=
  ["aljazeera"; "bbcarabic"; "text"; "json"; "epub"; "tei2"; "opensubtitles"; "lines"; "xml"; "file"; "tar"; "mediawikimarkdown"; "brotli"].
(** text.py:393-403: lulua-write *)
Definition write_program : program := mkProgram
  (mkParser [help_action;
    flag ["--benchmark"] "benchmark" "Benchmark filter, no stats";
    opt ["-j"; "--jobs"] "jobs" CInt (VConst "cpu_count ()") "Number of parallel jobs";
    keyboard_opt;
    flag ["-v"; "--verbose"] "verbose" "Enable debugging output";
    pos "layout" "Keyboard layout name";
    mkAction [] "filter" NPlus Store CStr (Some filterAvail) (Some VNone) true "Data filter"] []) [].
(** text.py:467-470: lulua-extract-mediawiki *)
Definition extract_program : program := mkProgram (mkParser [help_action; pos "file" "bzip2-compressed dump"] []) [].
