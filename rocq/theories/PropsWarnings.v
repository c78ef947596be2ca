(** C74: nothing in a database is dropped without a word. *)
From Verif Require Import GoStr GoStrFacts GoSort GoSortFacts Types Osv OsvSpec MemDB Path Api ZipDB ZipSpec DirDB DirDBSpec Lockfile Report SemNum OsvExamples ConfigExamples Warnings WarningsSpec WarningsProofs.

(** every advisory file of a loaded archive is in the database, or named in a
    notice on stderr, and there are no other notices but those of the cache *)
Theorem C74_archive : forall json_err read_err write_err dec unzip path url wd offline pkgs file answer db date w rqs,
  zip_load unzip dec url wd offline pkgs file answer = (Ok (inr (db, date)), w, rqs) ->
  exists body entries os ts, f_result (fetch_zip url offline file answer) = Ok (inr (body, date)) /\ unzip body = Some entries
    /\ db = load_all pkgs os /\ loaded_or_told json_err read_err dec wd entries os ts
    /\ zip_load_says json_err read_err write_err dec unzip path url wd offline file answer
       = cache_says json_err path file ++ write_says write_err path w ++ ts.
Proof. exact zip_told. Qed.
Print Assumptions C74_archive.
(** so the count shown and the notices add up to the files *)
Theorem C74_count : forall json_err read_err dec wd pkgs entries os ts, loaded_or_told json_err read_err dec wd entries os ts ->
  (m_count (load_all pkgs os) + List.length ts)%nat = List.length (filter (fun e => has_prefix (fst e) wd && has_suffix (fst e) ".json") entries).
Proof. exact told_count. Qed.
Print Assumptions C74_count.
(** the cache file that a load leaves, cut short or not, is complained of by the
    next just when it was cut short *)
Theorem C74_cache : forall json_err path url offline file answer contents p q,
  f_write (fetch_zip url offline file answer) = Some contents -> contents = p +s+ q ->
  cache_says json_err path (Some p) = if seqb q "" then [] else ["Failed to parse cache from " +s+ path +s+ ": " +s+ json_err p +s+ newline].
Proof. exact cache_told. Qed.
Print Assumptions C74_cache.
(** directories: one notice for each place that needs one, in path order, and a
    final newline if there are any *)
Theorem C74_directory : forall json_err read_err dec parse_uri fs url wd u, (exists r, url = "file:" +s+ r) -> parse_uri url = Some u ->
  let p := path_join [trim_prefix (u_path u) "/"; wd] in
  sorted_node (fs p) -> ~ vanished (fs p) ->
  exists ts, dir_load_says json_err read_err dec parse_uri fs url wd = map snd ts ++ (match ts with [] => [] | _ => [newline] end)
    /\ (forall q t, In (q, t) ts <-> dir_notice json_err read_err dec (path_base p) (fs p) q t)
    /\ NoDup (map fst ts) /\ StronglySorted path_lt (map fst ts).
Proof. exact dir_told. Qed.
Print Assumptions C74_directory.
Theorem C74_directory_file : forall json_err read_err dec name root q c, at_path root q (NFile c) -> (exists stem, last q name = stem +s+ ".json") ->
  (exists o, advisory_at dec name root q o) \/ exists t, dir_notice json_err read_err dec name root q t.
Proof. exact dir_no_loss. Qed.
Print Assumptions C74_directory_file.
(** an advisory that is found not to affect a package gives one notice for each
    of its entries that names the package without saying anything of versions;
    one that does (or crashes), for those before the entry that decides *)
Theorem C74_bare : forall S sem o pkg, exists pre post n, o_affected o = pre ++ post /\ bare_entries pkg pre n
  /\ is_affected_says S sem o pkg = repeat (bare_notice (o_id o)) n
  /\ (forall o', is_affected S sem o pkg = Ok (false, o') -> post = [])
  /\ (post = [] \/ exists a post', post = a :: post' /\ names a pkg /\ ~ bare a).
Proof. exact affected_told. Qed.
Print Assumptions C74_bare.

Definition wx_entries : list (string * option string) :=
  [("npm/a.json", Some "good"); ("npm/b.json", Some "bad"); ("npm/c.json", None); ("npm/notes", Some "bad"); ("go/d.json", Some "bad")].
Example C74_case :
  zip_load_says (fun c => c) (fun n => "no") (Some "full") ex_dec (fun _ => Some wx_entries) "/c" "u" "npm/" false (Some "{") (fun _ => ZResp 200 "e" "d" (Some "z"))
  = ["Failed to parse cache from /c: {" +s+ newline; "Failed to write cache to /c: full" +s+ newline;
     "npm/b.json is not a valid JSON file: bad" +s+ newline; "Could not read npm/c.json: no" +s+ newline]
  /\ (exists db w rqs, zip_load (fun _ => Some wx_entries) ex_dec "u" "npm/" false [] (Some "{") (fun _ => ZResp 200 "e" "d" (Some "z")) = (Ok (inr (db, "d")), w, rqs) /\ m_count db = 1)
  /\ dir_load_says (fun c => c) (fun n => n) ex_dec (fun _ => Some (mkURL "/db" (fun s => s))) (fun p => if seqb p "db" then ex_tree else NGone) "file:/db" ""
     = [newline +s+ "c.json"; newline +s+ "e.json"; "b.json is not a valid JSON file: bad" +s+ newline; newline +s+ "    z"; newline]
  /\ is_affected_says isort num_sem (mkOSV "X" [] "" "" "" None "" [mkAff (mkOPkg "lib" "npm") [] []; mkAff (mkOPkg "lib" "npm") ["2"] []]) (ex_pkg "1") = [bare_notice "X"]
  /\ (exists o', is_affected isort num_sem (mkOSV "X" [] "" "" "" None "" [mkAff (mkOPkg "lib" "npm") [] []; mkAff (mkOPkg "lib" "npm") ["2"] []]) (ex_pkg "1") = Ok (false, o')).
Proof.
  split; [vm_compute; reflexivity|]. split; [eexists _, _, _; split; vm_compute; reflexivity|]. split; [vm_compute; reflexivity|]. split; [vm_compute; reflexivity|].
  eexists. vm_compute. reflexivity.
Qed.
