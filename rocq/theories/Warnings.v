(** What pkg/database writes to os.Stderr itself: the notices about a cache,
    about advisories that cannot be read, and about advisories that say
    nothing.  The functions follow the control flow of those in ZipDB.v,
    DirDB.v and Osv.v, which leave the notices out. *)
From Verif Require Import GoStr GoSort Types Json Osv MemDB Path Api ZipDB DirDB Lockfile Report.

Section WithErrors.
(** the texts of errors: of json.Unmarshal by the contents, of opening or
    reading a file by its name, of writing the cache (None: it is written) *)
Variables json_err read_err : string -> string.
Variable write_err : option string.
Variable dec_osv : string -> OSV * bool.

(** zip.go:55-61 *)
Definition cache_says (path : string) (file : option string) : list string :=
  match file with
  | Some content =>
      if snd (dec_cache content) then ["Failed to parse cache from " +s+ path +s+ ": " +s+ json_err content +s+ newline] else []
  | None => []
  end.
(** zip.go:116-125 *)
Definition write_says (path : string) (write : option string) : list string :=
  match write, write_err with
  | Some _, Some err => ["Failed to write cache to " +s+ path +s+ ": " +s+ err +s+ newline]
  | _, _ => []
  end.
(** zip.go:142-164 loadZipFile *)
Definition zip_file_says (e : string * option string) : list string :=
  match snd e with
  | None => ["Could not read " +s+ fst e +s+ ": " +s+ read_err (fst e) +s+ newline]
  | Some content =>
      if snd (dec_osv content) then [fst e +s+ " is not a valid JSON file: " +s+ json_err content +s+ newline] else []
  end.
(** zip.go:189-200 *)
Definition zip_entry_says (wd : string) (e : string * option string) : list string :=
  if negb (has_prefix (fst e) wd) then []
  else if negb (has_suffix (fst e) ".json") then []
  else zip_file_says e.
(** zip.go:175-203 load *)
Definition zip_load_says (unzip : string -> option (list (string * option string))) (path url wd : string) (offline : bool)
  (file : option string) (answer : zreq -> zresp) : list string :=
  let f := fetch_zip url offline file answer in
  cache_says path file ++ write_says path (f_write f)
  ++ match f_result f with
     | Ok (inr (body, _)) => match unzip body with Some entries => flat_map (zip_entry_says wd) entries | None => [] end
     | _ => []
     end.

(** dir.go:49-84 the callback: what it says, and whether the walk goes on *)
Definition dir_visit_says (c : wcall) : list string * bool :=
  match w_info c with
  | INone => ([], false)
  | IDir false => ([newline +s+ "    " +s+ read_err (w_name c)], true)
  | i =>
      if negb (has_suffix (w_name c) ".json") then ([], true)
      else match i with
           | IFile (Some content) =>
               (if snd (dec_osv content) then [w_name c +s+ " is not a valid JSON file: " +s+ json_err content +s+ newline] else [], true)
           | _ => ([newline +s+ read_err (w_name c)], true)
           end
  end.
Fixpoint dir_visits_say (l : list wcall) : list string :=
  match l with
  | [] => []
  | c :: l' => let '(says, on) := dir_visit_says c in says ++ (if on then dir_visits_say l' else [])
  end.
(** dir.go:31-95 load; the final newline is dir.go:86-88 *)
Definition dir_load_says (parse_uri : string -> option URL) (fs : string -> node) (url wd : string) : list string :=
  if negb (has_prefix url "file:") then []
  else match parse_uri url with
       | None => []
       | Some u =>
           let p := path_join [trim_prefix (u_path u) "/"; wd] in
           let says := dir_visits_say (walk (path_base p) (fs p)) in
           says ++ (if Nat.eqb (List.length says) 0 then [] else [newline])
       end.
End WithErrors.

Section WithSort.
Variable S : Sorter.
(** osv.go:284-313 IsAffected *)
Fixpoint affected_says (sem : Semantic) (id : string) (l : list Affected) (pkg : Pkg) : list string :=
  match l with
  | [] => []
  | a :: l' =>
      if ecosystems_equal (op_eco (a_pkg a)) (p_eco pkg) && seqb (normalized_name (a_pkg a)) (p_name pkg)
      then
        if Nat.eqb (List.length (a_ranges a)) 0 && Nat.eqb (List.length (a_versions a)) 0
        then (id +s+ " does not have any ranges or versions - this is probably a mistake!" +s+ newline) :: affected_says sem id l' pkg
        else if mem (p_version pkg) (a_versions a) then []
        else match affects_version S sem (a_ranges a) pkg with
             | Panic => []
             | Ok (b, _) => if b then [] else if seqb (p_version pkg) "" then [] else affected_says sem id l' pkg
             end
      else affected_says sem id l' pkg
  end.
Definition is_affected_says (sem : Semantic) (o : OSV) (pkg : Pkg) : list string := affected_says sem (o_id o) (o_affected o) pkg.
End WithSort.
