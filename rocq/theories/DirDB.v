(** pkg/database/dir.go.  The warnings written to stderr (and the flag deciding
    on a final newline there) are in Warnings.v. *)
From Verif Require Import GoStr Types Path MemDB Api.

(** What the file system holds at a path: a file (None: os.ReadFile fails), a
    directory (None: cannot be listed), or nothing (os.Lstat fails). *)
Inductive node := NFile (content : option string) | NDir (children : option (list (string * node))) | NGone.

(** one call of the callback given to filepath.Walk: the base name, and the
    FileInfo and error together *)
Inductive info := IFile (content : option string) | IDir (listed : bool) | INone.
Record wcall := mkCall { w_name : string; w_info : info }.
(** filepath.Walk (standard library): the calls made while the callback returns
    nil.  Children are visited in the order of the listing, which
    filepath.Walk sorts by name; see [sorted_node] in DirDBSpec.v. *)
Fixpoint walk (name : string) (n : node) : list wcall :=
  match n with
  | NGone => [mkCall name INone]
  | NFile c => [mkCall name (IFile c)]
  | NDir None => [mkCall name (IDir false)]
  | NDir (Some l) => mkCall name (IDir true) :: flat_map (fun kv => match kv with (k, c) => walk k c end) l
  end.

(** dir.go:27,40,90-92 *)
Inductive dir_err := DProtocol | DUrl | DWalk.

Section WithDecoder.
Variable dec_osv : string -> OSV * bool.
(** dir.go:49-84 the callback: None stops the walk with an error *)
Definition dir_visit (names : list string) (db : memDB) (c : wcall) : option memDB :=
  match w_info c with
  | INone => None
  | IDir false => Some db
  | i =>
      if negb (has_suffix (w_name c) ".json") then Some db
      else match i with
           | IFile (Some content) => let '(o, bad) := dec_osv content in
                                     Some (if bad then db else add_vulnerability db o names)
           | _ => Some db
           end
  end.
Fixpoint dir_visits (names : list string) (db : memDB) (l : list wcall) : option memDB :=
  match l with
  | [] => Some db
  | c :: l' => match dir_visit names db c with Some db' => dir_visits names db' l' | None => None end
  end.
(** dir.go:31-95 load; [fs] is the file system by cleaned path *)
Definition dir_load (parse_uri : string -> option URL) (fs : string -> node) (url wd : string) (names : list string) : dir_err + memDB :=
  if negb (has_prefix url "file:") then inl DProtocol
  else match parse_uri url with
       | None => inl DUrl
       | Some u =>
           let p := path_join [trim_prefix (u_path u) "/"; wd] in
           match dir_visits names empty_db (walk (path_base p) (fs p)) with
           | None => inl DWalk
           | Some db => inr db
           end
       end.
End WithDecoder.
