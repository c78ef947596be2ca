(** Property theorems about a lockfile among others (C77). *)
From Verif Require Import GoStr GoStrFacts GoSort GoSortFacts GoMap Types Osv OsvSpec MemDB MemDBSpec Path Api ZipDB ZipSpec DirDB DirDBSpec DbConfig Configer Lockfile Csv Report ReportSpec Json Main MainSpec EndSpec EndProofs AmongSpec AmongProofs SemNum OsvExamples ConfigExamples MainExamples.

(** C77: a lockfile checked in two runs that differ only in the paths given is
    checked with the same config and ignores against the same databases, which
    answer the same; so each package lists the same advisories, up to related
    ones, and with the databases in the same order the reports are the same *)
Theorem C77_same : forall E O fs cache a b, SorterOk (e_sort E) -> IterOk (e_iter E) -> EntriesOk E ->
  steady E O cache -> o_no_config O = false -> checking O ->
  distinct_names E (with_args O a) fs -> distinct_names E (with_args O b) fs ->
  comparable E (with_args O a) fs cache -> usual_ecosystems E (with_args O a) fs ->
  forall code1 s1 code2 s2, run E (with_args O a) (start fs cache) = (Ok code1, s1) -> run E (with_args O b) (start fs cache) = (Ok code2, s2) ->
  failures (s_trace s1) = [] -> failures (s_trace s2) = [] ->
  forall ck1 ck2, In ck1 (checks (s_trace s1)) -> In ck2 (checks (s_trace s2)) -> rp_lock (ck_report ck1) = rp_lock (ck_report ck2) ->
  same_checks ck1 ck2 /\ Forall2 like_row (rp_pkgs (ck_report ck1)) (rp_pkgs (ck_report ck2))
  /\ (ck_dbs ck1 = ck_dbs ck2 -> Forall2 same_row (rp_pkgs (ck_report ck1)) (rp_pkgs (ck_report ck2))).
Proof. exact run_among. Qed.
(** so, with nothing ignored, two sets of paths together fail iff one of them
    does *)
Theorem C77_together : forall E O fs cache, SorterOk (e_sort E) -> IterOk (e_iter E) -> EntriesOk E ->
  steady E O cache -> o_no_config O = false -> checking O -> o_parse_as O <> "csv-row" ->
  forall a b ca sa cb sb cab sab, (forall x, In x (a ++ b) -> has_prefix x "csv-row:" = false) ->
  run E (with_args O a) (start fs cache) = (Ok ca, sa) -> ca = 0%Z \/ ca = 1%Z ->
  run E (with_args O b) (start fs cache) = (Ok cb, sb) -> cb = 0%Z \/ cb = 1%Z ->
  run E (with_args O (a ++ b)) (start fs cache) = (Ok cab, sab) -> cab = 0%Z \/ cab = 1%Z ->
  distinct_names E (with_args O (a ++ b)) fs -> comparable E (with_args O (a ++ b)) fs cache -> usual_ecosystems E (with_args O (a ++ b)) fs ->
  (forall ck, In ck (checks (s_trace sab)) -> ck_ignores ck = []) ->
  (cab = 1%Z <-> ca = 1%Z \/ cb = 1%Z).
Proof. exact run_union. Qed.
Print Assumptions C77_same.
Print Assumptions C77_together.

(** two yarn.locks: a has lib 1.0 and uses the directories one and two; b has
    another package and uses them the other way round. The advisories in one
    and two are related *)
Definition am_tree (p : string) : node :=
  if seqb p "one" then NDir (Some [("x.json", NFile (Some "good"))])
  else if seqb p "two" then NDir (Some [("y.json", NFile (Some "alias"))]) else NDir (Some []).
Definition am_world : World := mkWorld ex_parse_uri (fun _ => None) ex_dec (fun q => ZResp 500 "" "" None) am_tree.
Definition am_other : Pkg := mkPkg "other" "2" "" "npm" "npm".
Definition am_impl (f : ParserFn) (path : string) : PResult :=
  if seqb path "a/yarn.lock" then Ok ([ex_pkg "1.0"], None) else Ok ([am_other], None).
Definition am_stat (p : string) : path_kind := if seqb p "a/yarn.lock" || seqb p "b/yarn.lock" then KFile else KNoOpen.
Definition am_env : Env := mkEnv am_world num_sem isort (fun _ l => l) (fun _ s => s) (fun _ => "err")
  (fun v => JObj [("id", JStr (o_id v))]) am_stat am_impl (fun _ => None) (fun u => u) yj_dec yj_enc (fun _ => true)
  (fun _ _ pkgs => Ok (inr (map (fun _ => []) pkgs))) "v".
Definition am_one : DBConfig := mkDC "one" "dir" "file:/one" "".
Definition am_two : DBConfig := mkDC "two" "dir" "file:/two" "".
Definition am_raw (n : string) : raw_db := mkRD ("file:/" +s+ n) n "" "".
Definition am_files (p : string) : fread :=
  if seqb p "a/.osv-detector.yml" then FOk (yj_enc (mkRC [] [am_raw "one"; am_raw "two"]))
  else if seqb p "b/.osv-detector.yml" then FOk (yj_enc (mkRC [] [am_raw "two"; am_raw "one"])) else FNotExist.
Definition am_opts (ignores args : list string) : Opts :=
  mkOpts false "" "" false false false false false false false false false false 1000 ignores args.
Definition am_run ignores args := run am_env (am_opts ignores args) (start am_files (fun _ => None)).
Definition am_a : Lockfile := mkLF "a/yarn.lock" "yarn.lock" [ex_pkg "1.0"].
Definition am_b : Lockfile := mkLF "b/yarn.lock" "yarn.lock" [am_other].
Definition am_ca : Config := mkCfg "a/.osv-detector.yml" [] [am_one; am_two].
Definition am_cb : Config := mkCfg "b/.osv-detector.yml" [] [am_two; am_one].
Definition am_files_of (args : list string) : Prop := Forall (fun x => x = "a/yarn.lock" \/ x = "b/yarn.lock") args.
Definition am_reading (x : string) : reading := if seqb x "a/yarn.lock" then Usable am_a am_ca else Usable am_b am_cb.
Lemma am_entries : EntriesOk am_env.
Proof. intros p l H. cbn in H. unfold am_stat in H. destruct (_ || _); discriminate. Qed.
Lemma am_iter : IterOk (e_iter am_env). Proof. intros A l. reflexivity. Qed.
Lemma am_steady ig args : steady am_env (am_opts ig args) (fun _ => None).
Proof. split; [|reflexivity]. intros d e1 e2 (before & body & date & w & rq & _ & _ & U). discriminate U. Qed.
Lemma am_finds args : am_files_of args -> finds_all am_env "" args (map (fun x => ("", x)) args) false.
Proof.
  induction 1 as [|x args H F IH]; [constructor|]. cbn [map].
  change (("", x) :: map (fun x => ("", x)) args) with ([("", x)] ++ map (fun x => ("", x)) args).
  replace [("", x)] with (map (fun p => ("", clean p)) [x]) by (destruct H as [-> | ->]; reflexivity).
  change false with (false || false). apply (fa_arg am_env "" x args "" x).
  - left. destruct H as [-> | ->]; auto.
  - reflexivity.
  - apply fi_file. destruct H as [-> | ->]; reflexivity.
  - exact IH.
Qed.
Lemma am_reads ig args : am_files_of args ->
  Forall2 (reads am_env (am_opts ig args) am_files Beside) (map as_arg (map (fun x => ("", x)) args)) (map am_reading args).
Proof.
  intros F. set (O := am_opts ig args). assert (Q : forall x, x = "a/yarn.lock" \/ x = "b/yarn.lock" -> reads am_env O am_files Beside (as_arg ("", x)) (am_reading x)).
  { intros x [-> | ->]; (apply rd_ok; [apply cf_beside with []; vm_compute; reflexivity|vm_compute; reflexivity]). }
  clearbody O. induction F as [|x args H F IH]; cbn [map]; constructor; auto.
Qed.
Lemma am_uses ig args l c d : am_files_of args -> uses am_env (am_opts ig args) am_files l c d ->
  (l = am_a \/ l = am_b) /\ (d = am_one \/ d = am_two).
Proof.
  intros F U. assert (M : mode_of am_env (am_opts ig args) am_files Beside) by (apply mo_beside; reflexivity).
  assert (I : inputs am_env (am_opts ig args) (map (fun x => ("", x)) args) false) by (apply in_found; [discriminate|now apply am_finds]).
  destruct (uses_in _ _ _ _ _ _ _ _ _ _ I M (am_reads ig args F) U) as [H A].
  assert (L : l = am_a /\ c = am_ca \/ l = am_b /\ c = am_cb).
  { apply usables_in in H. apply in_map_iff in H as (x & X & _). unfold am_reading in X. destruct (seqb x "a/yarn.lock"); injection X as <- <-; auto. }
  inversion A as [m l1 c1 d1 N W|m l1 c1 d1 l0 c0 S|m l1 c1 d1 us l0 c0 S]; [|discriminate S|discriminate S]; subst.
  destruct W as [[_ W]|[[W _]|[W _]]]; [|discriminate W|discriminate W].
  destruct L as [[-> ->]|[-> ->]]; destruct W as [<-|[<-|[]]]; auto.
Qed.
Lemma am_distinct ig args : am_files_of args -> distinct_names am_env (am_opts ig args) am_files.
Proof. intros F l c d U. destruct (am_uses _ _ _ _ _ F U) as [_ [-> | ->]]; reflexivity. Qed.
Lemma am_usual ig args : am_files_of args -> usual_ecosystems am_env (am_opts ig args) am_files.
Proof. intros F l c d p U P. left. destruct (am_uses _ _ _ _ _ F U) as [[-> | ->] _]; destruct P as [<-|[]]; reflexivity. Qed.
Lemma am_comparable ig args : am_files_of args -> comparable am_env (am_opts ig args) am_files (fun _ => None).
Proof.
  intros F l c d p o U P M. assert (H : o = ex_osv \/ o = ex_alias).
  { assert (D : exists s, ex_dec s = (o, false)).
    { destruct M as [entries T A (e & _ & _ & _ & x & _ & X)|T (u & q & _ & x & _ & _ & X)]; eauto. }
    destruct D as (s & D). unfold ex_dec in D. destruct (seqb s "good"); [injection D; auto|]. destruct (seqb s "alias"); [injection D; auto|]. discriminate D. }
  assert (Wf : wf_osv num_sem "npm" o).
  { pose proof ex_wf_all as W. rewrite Forall_forall in W. apply W. cbn. intuition. }
  destruct (am_uses _ _ _ _ _ F U) as [[-> | ->] _]; destruct P as [<-|[]]; (split; [apply num_order|reflexivity|constructor; [exact Wf|constructor]]).
Qed.
Definition am_ra := ["a/yarn.lock"]. Definition am_rb := ["b/yarn.lock"].
Lemma am_all : am_files_of am_ra /\ am_files_of am_rb /\ am_files_of (am_rb ++ am_ra).
Proof. unfold am_files_of, am_ra, am_rb. cbn [app]. repeat split; repeat (apply Forall_cons; auto). Qed.
(** with nothing ignored: a fails, b passes, b and a together fail; the
    databases are asked in another order, which shows in the advisory listed *)
Definition am_ids (s : St) : list (list string * list (list string)) :=
  map (fun ck => (ck_dbs ck, map (fun r => map o_id (listed r)) (rp_pkgs (ck_report ck)))) (checks (s_trace s)).
Example C77_case : distinct_names am_env (with_args (am_opts [] []) (am_rb ++ am_ra)) am_files
  /\ comparable am_env (with_args (am_opts [] []) (am_rb ++ am_ra)) am_files (fun _ => None)
  /\ usual_ecosystems am_env (with_args (am_opts [] []) (am_rb ++ am_ra)) am_files
  /\ steady am_env (am_opts [] []) (fun _ => None)
  /\ fst (am_run [] am_ra) = Ok 1%Z /\ fst (am_run [] am_rb) = Ok 0%Z /\ fst (am_run [] (am_rb ++ am_ra)) = Ok 1%Z
  /\ am_ids (snd (am_run [] am_ra)) = [(["dir#file:/one"; "dir#file:/two"], [["GHSA-1"]])]
  /\ am_ids (snd (am_run [] (am_rb ++ am_ra))) = [(["dir#file:/two"; "dir#file:/one"], [[]]); (["dir#file:/two"; "dir#file:/one"], [["OSV-2"]])].
Proof.
  destruct am_all as (_ & _ & F). split; [now apply am_distinct|]. split; [now apply am_comparable|]. split; [now apply am_usual|]. split; [apply am_steady|].
  repeat split; vm_compute; reflexivity.
Qed.
(** with GHSA-1 ignored, each of the two passes on its own and both together
    fail: which of the related advisories counts depends on the other lockfile *)
Theorem C77_ignores_refuted : exists E O fs cache a b sa sb sab,
  SorterOk (e_sort E) /\ IterOk (e_iter E) /\ EntriesOk E /\ steady E O cache /\ o_no_config O = false /\ checking O
  /\ distinct_names E (with_args O (a ++ b)) fs /\ comparable E (with_args O (a ++ b)) fs cache /\ usual_ecosystems E (with_args O (a ++ b)) fs
  /\ run E (with_args O a) (start fs cache) = (Ok 0%Z, sa) /\ run E (with_args O b) (start fs cache) = (Ok 0%Z, sb)
  /\ run E (with_args O (a ++ b)) (start fs cache) = (Ok 1%Z, sab).
Proof.
  exists am_env, (am_opts ["GHSA-1"] []), am_files, (fun _ => None), am_rb, am_ra,
    (snd (am_run ["GHSA-1"] am_rb)), (snd (am_run ["GHSA-1"] am_ra)), (snd (am_run ["GHSA-1"] (am_rb ++ am_ra))).
  destruct am_all as (_ & _ & F).
  split; [exact isort_ok|]. split; [exact am_iter|]. split; [exact am_entries|]. split; [apply am_steady|]. split; [reflexivity|]. split; [repeat split|].
  split; [now apply am_distinct|]. split; [now apply am_comparable|]. split; [now apply am_usual|].
  assert (X : forall ig args code, fst (am_run ig args) = Ok code ->
    run am_env (with_args (am_opts ig []) args) (start am_files (fun _ => None)) = (Ok code, snd (am_run ig args))).
  { intros ig args code H. rewrite <- H. unfold am_run. apply surjective_pairing. }
  split; [apply X; vm_compute; reflexivity|]. split; apply X; vm_compute; reflexivity.
Qed.
Print Assumptions C77_ignores_refuted.
