(** pnpm-lock.yaml: C52. *)
From Coq Require Import QArith.
From Verif Require Import GoStr Types GoMap Scan LockIO Commit CommitSpec CommitProofs LockSpec PnpmLock PnpmSpec PnpmProofs PropsListLocks.
Local Open Scope string_scope.

(** C52: the name and the version a path spells *)
Theorem C52_path : forall nine path n v, pnpm_path nine path n v -> extract_pnpm path nine = Ok (Some (n, v)).
Proof. exact path_spec. Qed.
Print Assumptions C52_path.
(** the packages of a file: fields before paths, nothing without a name or a
    version, the commit of a codeload tarball before the one recorded *)
Theorem C52_packages : forall it files float yaml path v nine l ps, IterOk it -> pnpm_file files float yaml path v l ->
  (nine = true <-> v == 9) -> makes (pnpm_entry nine) l ps ->
  exists out, parse_pnpm_lock it files float yaml path = Ok (inr out) /\ Permutation ps out.
Proof. exact pnpm_lock. Qed.
Print Assumptions C52_packages.
(** crash, error or packages *)
Theorem C52_fails : forall it files float yaml path v l, IterOk it -> pnpm_file files float yaml path v l ->
  match parse_pnpm_lock it files float yaml path with
  | Panic => ~ v == 9 /\ Exists (fun d => bare_scope (fst d)) l
  | Ok (inl f) => ~ v == 9 /\ Exists (fun d => no_path (fst d)) l /\ f = FParse path
  | Ok (inr _) => v == 9 \/ Forall (fun d => ~ bare_scope (fst d) /\ ~ no_path (fst d)) l
  end.
Proof. exact pnpm_fails. Qed.
Print Assumptions C52_fails.
(** peers as pnpm writes them, scoped or with peers of their own, are not all
    read: neither is every version *)
Theorem C52_peers_refuted : ~ forall n v q, pnpm_name n -> v6_version v -> extract_pnpm ("/" +s+ n +s+ "@" +s+ v +s+ "(" +s+ q +s+ ")") false = Ok (Some (n, v)).
Proof.
  intros H. assert (A := H "foo" "1.0.0" "bar@1.0.0(baz@2.0.0)"). revert A.
  replace (extract_pnpm _ _) with (Ok (Some ("foo@1.0.0(bar", "1.0.0"))) by (vm_compute; reflexivity). intros A. discriminate A.
  - left. repeat split; try reflexivity. discriminate.
  - split; [exists "1"%char, ".0.0"; auto|]. split; reflexivity.
Qed.
Theorem C52_scoped_peer_refuted : ~ forall n v s m w, pnpm_name n -> v6_version v -> plain_part s -> plain_part m -> v6_version w ->
  extract_pnpm ("/" +s+ n +s+ "@" +s+ v +s+ "(@" +s+ s +s+ "/" +s+ m +s+ "@" +s+ w +s+ ")") false = Ok (Some (n, v)).
Proof.
  intros H. assert (A := H "foo" "1.0.0" "babel" "core" "7.0.0"). revert A.
  replace (extract_pnpm _ _) with (Ok (Some ("", ""))) by (vm_compute; reflexivity). intros A. discriminate A.
  - left. repeat split; try reflexivity. discriminate.
  - split; [exists "1"%char, ".0.0"; auto|]. split; reflexivity.
  - repeat split; try reflexivity. discriminate.
  - repeat split; try reflexivity. discriminate.
  - split; [exists "7"%char, ".0.0"; auto|]. split; reflexivity.
Qed.
Theorem C52_build_refuted : ~ forall n v b, pnpm_name n -> v6_version v -> word b -> extract_pnpm ("/" +s+ n +s+ "@" +s+ v +s+ "+" +s+ b) false = Ok (Some (n, v +s+ "+" +s+ b)).
Proof.
  intros H. assert (A := H "foo" "1.0.0" "b1"). revert A.
  replace (extract_pnpm _ _) with (Ok (Some ("", ""))) by (vm_compute; reflexivity). intros A. discriminate A.
  - left. repeat split; try reflexivity. discriminate.
  - split; [exists "1"%char, ".0.0"; auto|]. split; reflexivity.
  - split; [discriminate|reflexivity].
Qed.
Print Assumptions C52_peers_refuted.
Print Assumptions C52_scoped_peer_refuted.
Print Assumptions C52_build_refuted.
Definition px (tarball commit name version : string) : PnpmPackage := mkPnpm tarball commit name version.
Definition px_list : list (string * PnpmPackage) :=
  [("/acorn/8.7.0", px "" "" "" ""); ("/@babel/core/7.16.0_peer@1.0.0", px "" "" "" "");
   ("/@types/node@18.0.0(a@1.0.0)(b@2.0.0)", px "" "" "" ""); ("file:../lib", px "" "" "" "");
   ("github.com/o/r/abc", px "https://codeload.github.com/o/r/tar.gz/abc" "x" "r" "2.0.0")].
Definition px_yaml (l : list (string * PnpmPackage)) (_ : string) : option (option (option (string * option (list (string * PnpmPackage))))) := Some (Some (Some ("6.0", Some l))).
Ltac part := repeat split; try reflexivity; discriminate.
Example C52_case : pnpm_file (lx_file "x") (fun _ => Some 6) (px_yaml px_list) "/l" 6 px_list
  /\ parse_pnpm_lock lx_rev (lx_file "x") (fun _ => Some 6) (px_yaml px_list) "/l"
     = Ok (inr [mkPkg "r" "2.0.0" "abc" "npm" "npm"; mkPkg "@types/node" "18.0.0" "" "npm" "npm"; mkPkg "@babel/core" "7.16.0" "" "npm" "npm"; mkPkg "acorn" "8.7.0" "" "npm" "npm"]).
Proof. split; [exists "x", "6.0"; repeat split; reflexivity|]. vm_compute. reflexivity. Qed.
Lemma no_commit n v : pnpm_commit_of (px "" "" n v) "".
Proof. right. split; [|reflexivity]. intros x ((t & E) & _). discriminate. Qed.
Lemma px_path path n v : n <> "" -> v <> "" -> pnpm_path false path n v -> pnpm_entry false (path, px "" "" "" "") (Some (mkPkg n v "" "npm" "npm")).
Proof. intros N V P. exists n, v, n, v. split; [exact P|]. split; [now right|]. split; [now right|]. right. split; [exact N|]. split; [exact V|]. exists "". split; [apply no_commit|reflexivity]. Qed.
Example C52_makes : makes (pnpm_entry false) (firstn 4 px_list) [mkPkg "acorn" "8.7.0" "" "npm" "npm"; mkPkg "@babel/core" "7.16.0" "" "npm" "npm"; mkPkg "@types/node" "18.0.0" "" "npm" "npm"].
Proof.
  constructor; [|constructor; [|constructor; [|apply mk_none; [|constructor]]]].
  - apply px_path; try discriminate. apply (pp_v5 false "" "acorn" "8.7.0" ""); try reflexivity; try discriminate.
    + left. part.
    + split; [exists "8"%char, ".7.0"; auto|split; reflexivity].
    + now left.
  - apply px_path; try discriminate. apply (pp_v5 false "" "@babel/core" "7.16.0" "_peer@1.0.0"); try reflexivity; try discriminate.
    + right. exists "babel", "core". split; [reflexivity|]. split; part.
    + split; [exists "7"%char, ".16.0"; auto|split; reflexivity].
    + right. exists "peer@1.0.0". reflexivity.
  - apply px_path; try discriminate. apply (pp_v6 false "@types/node" "18.0.0" "(a@1.0.0)(b@2.0.0)"); try reflexivity.
    + right. exists "types", "node". split; [reflexivity|]. split; part.
    + split; [exists "1"%char, "8.0.0"; auto|split; reflexivity].
    + apply (vp_peer "a@1.0.0" "(b@2.0.0)"); try reflexivity. apply (vp_peer "b@2.0.0" ""); try reflexivity. constructor.
  - exists "", "", "", "". split; [apply (pp_file false "../lib")|]. split; [now right|]. split; [now right|]. left. auto.
Qed.
Example C52_commit_case : codeload "https://codeload.github.com/o/r/tar.gz/abc" "abc".
Proof. split; [eexists; reflexivity|]. exists "", "o", "r". repeat split; try reflexivity; discriminate. Qed.
Example C52_v9_case : pnpm_path true "'@s/a@1.0.0'" "@s/a" "1.0.0".
Proof.
  apply (pp_v9 true "'" "@s/a" "1.0.0"); auto; try discriminate.
  - split; [discriminate|]. right. exists "s/a". auto.
  - split; [discriminate|]. intros t E. apply (f_equal str_rev) in E. rewrite GoStrFacts.str_rev_append in E. discriminate.
Qed.
Example C52_fails_case : parse_pnpm_lock lx_iter (lx_file "x") (fun _ => Some 5) (px_yaml [("/@a", px "" "" "" "")]) "/l" = Panic
  /\ bare_scope "/@a" /\ no_path "acorn"
  /\ parse_pnpm_lock lx_iter (lx_file "x") (fun _ => Some 5) (px_yaml [("acorn", px "" "" "" "")]) "/l" = Ok (inl (FParse "/l")).
Proof.
  split; [vm_compute; reflexivity|]. split; [exists "", "a"; repeat split; try reflexivity; discriminate|]. split; [split; [reflexivity|discriminate]|vm_compute; reflexivity].
Qed.
