(** main.go:339-349,499-525: the flags, with Go's flag package (FlagSet.Parse
    with ExitOnError) and the functions of strconv it uses.  The usage text and
    the error messages of that package, written to os.Stderr, are not modelled. *)
From Verif Require Import GoStr Types Main.
Local Open Scope Z_scope.

(** strconv.ParseBool *)
Definition parse_bool (s : string) : option bool :=
  if mem s ["1"; "t"; "T"; "true"; "TRUE"; "True"] then Some true
  else if mem s ["0"; "f"; "F"; "false"; "FALSE"; "False"] then Some false
  else None.

(** strconv.ParseUint, base 0: the value of a byte as a digit (36: none) *)
Definition digit_of (c : ascii) : Z :=
  let n := Z.of_N (N_of_ascii c) in
  if is_digit c then n - 48
  else let l := Z.of_N (N_of_ascii (lower_char c)) in
       if is_lower (lower_char c) then l - 87 else 36.
(** the loop: the number, and whether underscores were seen.  Overflow is left
    to the range check at the end: both are errors. *)
Fixpoint uint_loop (base : Z) (s : string) (n : Z) : option Z :=
  match s with
  | EmptyString => Some n
  | String c s' =>
      if Ascii.eqb c "_" then uint_loop base s' n
      else if Z.leb base (digit_of c) then None
      else uint_loop base s' (n * base + digit_of c)
  end.
(** strconv.underscoreOK, after the sign and prefix; [i] is the class of the
    last byte: '^' start, '0' digit, '_' underscore, '!' other *)
Fixpoint underscore_ok (hex : bool) (i : ascii) (s : string) : bool :=
  match s with
  | EmptyString => negb (Ascii.eqb i "_")
  | String c s' =>
      if is_digit c || (hex && in_range 97 102 (lower_char c)) then underscore_ok hex "0" s'
      else if Ascii.eqb c "_" then Ascii.eqb i "0" && underscore_ok hex "_" s'
      else negb (Ascii.eqb i "_") && underscore_ok hex "!" s'
  end.
Definition base_of (c : ascii) : Z :=
  let l := lower_char c in
  if Ascii.eqb l "b" then 2 else if Ascii.eqb l "o" then 8 else if Ascii.eqb l "x" then 16 else 0.
(** strconv.ParseUint without its limit *)
Definition parse_uint (s : string) : option Z :=
  let go base digits (start : ascii) rest :=
    match uint_loop base digits 0 with
    | Some n => if has_char "_" s && negb (underscore_ok (Z.eqb base 16) start rest) then None else Some n
    | None => None
    end in
  match s with
  | EmptyString => None
  | String c s' =>
      if Ascii.eqb c "0" then
        match s' with
        | String p (String d s'') =>
            if Z.eqb (base_of p) 0 then go 8 s' "^"%char s
            else go (base_of p) (String d s'') "0"%char (String d s'')
        | _ => go 8 s' "^"%char s
        end
      else go 10 s "^"%char s
  end.
(** strconv.ParseInt(s, 0, 64) *)
Definition parse_int (s : string) : option Z :=
  let '(neg, digits) := match s with
                        | String c s' => if Ascii.eqb c "+" then (false, s') else if Ascii.eqb c "-" then (true, s') else (false, s)
                        | EmptyString => (false, s)
                        end in
  match parse_uint digits with
  | None => None
  | Some un =>
      if negb neg && Z.leb (2 ^ 63) un then None
      else if neg && Z.ltb (2 ^ 63) un then None
      else Some (if neg then - un else un)
  end.

(** main.go:503-520 the flags and what setting one does *)
Inductive flag_kind := FBool | FValue.
Definition flag_table : list (string * flag_kind) :=
  [("offline", FBool); ("parse-as", FValue); ("config", FValue); ("no-config", FBool);
   ("update-config-ignores", FBool); ("no-config-ignores", FBool); ("no-config-databases", FBool);
   ("version", FBool); ("list-ecosystems", FBool); ("list-packages", FBool); ("json", FBool);
   ("use-dbs", FBool); ("use-api", FBool); ("batch-size", FValue); ("ignore", FValue)].
Definition find_flag (name : string) : option flag_kind :=
  match find (fun kv => seqb (fst kv) name) flag_table with Some (_, k) => Some k | None => None end.
Definition set_bool (name : string) (b : bool) (O : Opts) : Opts :=
  let '(mkOpts off pa cf nc up ni nd ve le lp js ud ua ba ig ar) := O in
  if seqb name "offline" then mkOpts b pa cf nc up ni nd ve le lp js ud ua ba ig ar
  else if seqb name "no-config" then mkOpts off pa cf b up ni nd ve le lp js ud ua ba ig ar
  else if seqb name "update-config-ignores" then mkOpts off pa cf nc b ni nd ve le lp js ud ua ba ig ar
  else if seqb name "no-config-ignores" then mkOpts off pa cf nc up b nd ve le lp js ud ua ba ig ar
  else if seqb name "no-config-databases" then mkOpts off pa cf nc up ni b ve le lp js ud ua ba ig ar
  else if seqb name "version" then mkOpts off pa cf nc up ni nd b le lp js ud ua ba ig ar
  else if seqb name "list-ecosystems" then mkOpts off pa cf nc up ni nd ve b lp js ud ua ba ig ar
  else if seqb name "list-packages" then mkOpts off pa cf nc up ni nd ve le b js ud ua ba ig ar
  else if seqb name "json" then mkOpts off pa cf nc up ni nd ve le lp b ud ua ba ig ar
  else if seqb name "use-dbs" then mkOpts off pa cf nc up ni nd ve le lp js b ua ba ig ar
  else mkOpts off pa cf nc up ni nd ve le lp js ud b ba ig ar.
(** flag.Value.Set of the others; main.go:345-349 for --ignore *)
Definition set_value (name v : string) (O : Opts) : option Opts :=
  let '(mkOpts off pa cf nc up ni nd ve le lp js ud ua ba ig ar) := O in
  if seqb name "parse-as" then Some (mkOpts off v cf nc up ni nd ve le lp js ud ua ba ig ar)
  else if seqb name "config" then Some (mkOpts off pa v nc up ni nd ve le lp js ud ua ba ig ar)
  else if seqb name "batch-size" then option_map (fun z => mkOpts off pa cf nc up ni nd ve le lp js ud ua z ig ar) (parse_int v)
  else Some (mkOpts off pa cf nc up ni nd ve le lp js ud ua ba (ig ++ [v]) ar).
Definition set_args (O : Opts) (args : list string) : Opts :=
  let '(mkOpts off pa cf nc up ni nd ve le lp js ud ua ba ig _) := O in
  mkOpts off pa cf nc up ni nd ve le lp js ud ua ba ig args.
(** the defaults, given the environment variable OSV_DETECTOR_PREFER_API *)
Definition default_opts (env : string) : Opts :=
  mkOpts false "" "" false false false false false false false false (default_use_dbs env) (default_use_api env) 1000 [] [].

(** flag.FlagSet.parseOne: what one argument is *)
Inductive arg_form := Plain | Terminator | BadSyntax | Flag (name : string) (value : option string).
Definition flag_name (name : string) : arg_form :=
  match name with
  | EmptyString => BadSyntax
  | String c t =>
      if Ascii.eqb c "-" || Ascii.eqb c "=" then BadSyntax
      else let '(n, v, has) := cut t "=" in
           Flag (String c n) (if has : bool then Some v else None)
  end.
Definition arg_form_of (s : string) : arg_form :=
  match s with
  | String a (String b t) =>
      if negb (Ascii.eqb a "-") then Plain
      else if Ascii.eqb b "-" then (if seqb t "" then Terminator else flag_name t)
      else flag_name (String b t)
  | _ => Plain
  end.
(** flag.FlagSet.Parse: the options, or the code of os.Exit *)
Fixpoint parse_flags (O : Opts) (args : list string) : Z + Opts :=
  match args with
  | [] => inr (set_args O [])
  | s :: args' =>
      match arg_form_of s with
      | Plain => inr (set_args O args)
      | Terminator => inr (set_args O args')
      | BadSyntax => inl 2
      | Flag name value =>
          match find_flag name with
          | None => inl (if seqb name "help" || seqb name "h" then 0 else 2)
          | Some FBool =>
              match value with
              | None => parse_flags (set_bool name true O) args'
              | Some v => match parse_bool v with
                          | Some b => parse_flags (set_bool name b O) args'
                          | None => inl 2
                          end
              end
          | Some FValue =>
              match value with
              | Some v => match set_value name v O with Some O' => parse_flags O' args' | None => inl 2 end
              | None =>
                  match args' with
                  | [] => inl 2
                  | v :: args'' => match set_value name v O with Some O' => parse_flags O' args'' | None => inl 2 end
                  end
              end
          end
      end
  end.
(** main.go:499-525,740 the program, given its arguments *)
Definition run_args (E : Env) (env : string) (args : list string) : M Z := fun s =>
  match parse_flags (default_opts env) args with
  | inl code => (Ok code, s)
  | inr P => run E P s
  end.
