(** yarn.lock and commits in resolutions: C53, C62. *)
From Verif Require Import GoStr Types Scan LockIO Commit CommitSpec CommitProofs YarnLock YarnSpec YarnProofs LockSpec PropsListLocks.

(** C53: one package per block, except for the metadata and the project *)
Theorem C53_yarn : forall files url path ls bs, file_lines files path ls -> yarn_blocks ls bs ->
  exists ps, parse_yarn_lock files url path = (Ok (inr ps), map p_name (filter (fun p => seqb (p_version p) "") ps)) /\ makes (block_makes url) bs ps.
Proof. exact yarn_lock. Qed.
Print Assumptions C53_yarn.
(** every file's lines have blocks, in one way *)
Theorem C53_blocks : forall ls, exists bs, yarn_blocks ls bs /\ forall bs', yarn_blocks ls bs' -> bs' = bs.
Proof. exact blocks_exist. Qed.
Print Assumptions C53_blocks.
(** a line is a version line, or resolution line, in at most one way *)
Theorem C53_version : forall l v w, version_line l v -> version_line l w -> v = w.
Proof. exact version_fun. Qed.
Print Assumptions C53_version.
Theorem C53_resolution : forall l v w, resolution_line l v -> resolution_line l w -> v = w.
Proof. exact resolution_fun. Qed.
Print Assumptions C53_resolution.
(** the recursion over aliases ends on every text: any amount of steps
    beyond its length gives the same name *)
Theorem C53_terminates : forall str f, String.length str < f -> yarn_name_fuel f str = extract_yarn_package_name str.
Proof. exact yarn_name_steps. Qed.
Print Assumptions C53_terminates.
Theorem C53_name : forall h n, header_name h n -> extract_yarn_package_name h = n.
Proof. exact header_extract. Qed.
Print Assumptions C53_name.
(** a file that cannot be read, or scanned, is reported *)
Theorem C53_unread : forall files url path, (forall ls, ~ file_lines files path ls) ->
  exists e, parse_yarn_lock files url path = (fails_with e, []).
Proof. exact yarn_unread. Qed.
Print Assumptions C53_unread.
Definition yx_file : string :=
"# yarn lockfile v1
__metadata:
  version: 6

""@s/a@^1.0.0"", ""@s/a@^1.1.0"":
  version ""1.2.0-rc.1""
  resolved ""https://registry.yarnpkg.com/@s/a/-/a-1.2.0.tgz#abc""

my-b@npm:b@^2.0.0:
  version ""2.0.0""
c@git://github.com/o/c.git:
  version ""0.0.0""
  resolved ""git://github.com/o/c.git#deadbeef""
nov@*:
  resolved ""x""
""root@workspace:."":
  version: 0.0.0-use.local
".
Definition yx_url (s : string) : option Url := if seqb s "x" then None else Some (mkUrl "registry.yarnpkg.com" "" None "abc").
Example C53_case : exists ls bs, file_lines (lx_file yx_file) "/l" ls /\ yarn_blocks ls bs /\ List.length bs = 6
  /\ parse_yarn_lock (lx_file yx_file) yx_url "/l"
     = (Ok (inr [mkPkg "@s/a" "1.2.0-rc.1" "" "npm" "npm"; mkPkg "b" "2.0.0" "" "npm" "npm"; mkPkg "c" "0.0.0" "deadbeef" "npm" "npm"; mkPkg "nov" "" "" "npm" "npm"]), ["nov"]).
Proof.
  eexists _, _. split; [exists yx_file; split; [reflexivity|vm_compute; reflexivity]|]. split; [apply group_blocks|]. split; vm_compute; reflexivity.
Qed.
Example C53_header_case : header_name (quote +s+ "my-b@npm:b@^2.0.0" +s+ ", " +s+ "x") "b".
Proof.
  exists quote, "my-b@npm:b@^2.0.0", ", x". split; [now right|]. split; [reflexivity|]. split; [right; now exists " x"|]. split; [reflexivity|].
  apply (en_alias "my-b" "b@^2.0.0" "b"); [split; [split; [discriminate|now left]|split; reflexivity]|reflexivity|].
  apply (en_range "b" "^2.0.0"); [split; [split; [discriminate|now left]|split; reflexivity]|]. intros t E. discriminate.
Qed.

(** C62: the commit of a resolution of one of the git shapes *)
Theorem C62_shapes : forall url s c, commit_of s c -> try_extract_commit url s = c.
Proof. exact extract_git. Qed.
Print Assumptions C62_shapes.
(** which no resolution has twice *)
Theorem C62_unique : forall s c c', commit_of s c -> commit_of s c' -> c = c'.
Proof. exact commit_fun. Qed.
Print Assumptions C62_unique.
(** any other resolution is left to its url *)
Theorem C62_url : forall url s, (forall c, ~ commit_of s c) -> url_commit (url s) (try_extract_commit url s).
Proof. exact extract_url. Qed.
Print Assumptions C62_url.
(** a plain registry url has none *)
Theorem C62_registry : forall url r u, plain_url r -> url ("https://" +s+ r) = Some u -> ~ In (u_host u) ["bitbucket.org"; "github.com"; "gitlab.com"] ->
  try_extract_commit url ("https://" +s+ r) = "".
Proof. exact extract_registry. Qed.
Print Assumptions C62_registry.
Example C62_case : commit_of "git+ssh://git@github.com/o/r.git#abc123" "abc123"
  /\ try_extract_commit (fun _ => None) "git+ssh://git@github.com/o/r.git#abc123" = "abc123"
  /\ commit_of "r@https://github.com/o/r.git#commit=abc" "abc" /\ commit_of "github:o/r#abc" "abc"
  /\ commit_of "https://codeload.github.com/o/r-1.x/tar.gz/abc" "abc".
Proof.
  split; [apply (co_git "" "git+ssh" "git@github.com/o/r.git" "abc123"); [now left|cbn; auto|split; [discriminate|reflexivity]|split; [discriminate|reflexivity]]|].
  split; [vm_compute; reflexivity|]. split; [apply (co_commit "r@https://github.com/o/r.gi" "t" "=" "abc"); [discriminate|cbn; auto|split; [discriminate|reflexivity]]|].
  split; [apply (co_host "github" "o/r" "abc"); [cbn; auto|split; [discriminate|reflexivity]|split; [discriminate|reflexivity]]|].
  apply (co_codeload "" "o" "r-1.x" "abc"); split; discriminate || reflexivity.
Qed.
