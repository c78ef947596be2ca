(** A concrete environment for the examples about whole runs: a directory d
    with a go.mod, a Cargo.lock that does not parse, a README and a
    subdirectory; a directory e with a yarn.lock; a config in d. *)
From Verif Require Import GoStr GoSort GoSortFacts GoMap Types Osv MemDB Path Api ZipDB DirDB DbConfig Configer Lockfile Csv Report Json JsonRound Main MainSpec SemNum OsvExamples ConfigExamples.

Definition mx_adv (id : string) : OSV := mkOSV id [] "" "" "" None "text" [].
Definition mx_world : World := mkWorld ex_parse_uri (fun _ => Some []) (fun _ => (mx_adv "X", true))
  (fun q => ZResp 200 "" "today" (Some "zip")) (fun _ => NGone).
Definition mx_stat (p : string) : path_kind :=
  if seqb p "d" then KDir [("README", false); ("go.mod", false); ("yarn.lock", true); ("Cargo.lock", false)]
  else if seqb p "e" then KDir [("yarn.lock", false)]
  else if seqb p "empty" then KDir [("README", false)]
  else if seqb p "odd" then KNoReadDir
  else if seqb p "d/go.mod" then KFile
  else KNoOpen.
Definition mx_impl (f : ParserFn) (path : string) : PResult :=
  match f with
  | ParseGoLock => Ok ([mkPkg "bad" "1" "" "Go" "Go"; mkPkg "fine" "2" "" "Go" "Go"], None)
  | ParseYarnLock => Ok ([mkPkg "bad" "3" "" "npm" "npm"], None)
  | _ => Ok ([], Some "unreadable")
  end.
(** the API: "bad" has two advisories; it fails for batches of 7 *)
Definition mx_api (k : nat) (a : APIDB) (pkgs : list Pkg) : res (api_err + list (list OSV)) :=
  if Z.eqb (api_batch a) 7 then Ok (inl (EStatus 500))
  else Ok (inr (map (fun p => if seqb (p_name p) "bad" then [mx_adv "A"; mx_adv "B"] else []) pkgs)).
Definition mx_env : Env := mkEnv mx_world num_sem isort (fun _ l => l) (fun _ s => s) (fun _ => "err")
  (fun v => JObj [("id", JStr (o_id v))]) mx_stat mx_impl (fun _ => None) (fun u => u) yj_dec yj_enc (fun _ => true) mx_api "v".
Definition mx_conf : raw_config := mkRC ["A"] [mkRD "https://x/y" "mine" "api" ""].
Definition mx_files (p : string) : fread := if seqb p "d/.osv-detector.yml" then FOk (yj_enc mx_conf) else FNotExist.
Definition mx_opts (args : list string) : Opts := mkOpts false "" "" false false false false false false false false false false 1000 [] args.
Definition mx_run (O : Opts) := run mx_env O (start mx_files (fun _ => None)).
Lemma mx_sort : SorterOk (e_sort mx_env). Proof. exact isort_ok. Qed.
Lemma mx_iter : IterOk (e_iter mx_env). Proof. intros A l. reflexivity. Qed.
Lemma mx_entries : EntriesOk mx_env.
Proof.
  intros p l H. cbn in H. unfold mx_stat in H.
  repeat (match type of H with context [if ?b then _ else _] => destruct b end; [inversion H; repeat constructor; cbn; auto; discriminate|]). discriminate.
Qed.
Lemma mx_checking args : checking (mx_opts args). Proof. repeat split. Qed.
