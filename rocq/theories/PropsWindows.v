(** C90: on Windows, arguments with drives. *)
From Verif Require Import GoStr GoStrFacts GoSort Types Path Lockfile LockfileSpec Main MainSpec DiscoverProofs Windows WindowsSpec WindowsProofs.

(** every lockfile is read from where it was found, by the parser named before
    its path or else the one given for all *)
Theorem C90_read : forall windows is_abs clean find global args l, AbsOk is_abs -> known_as global -> global <> "csv-row" ->
  reads_on windows is_abs clean find global args l -> read_on windows is_abs (list_on windows is_abs clean find global args) = l.
Proof. exact (fun w abs clean find global args l A K N => reads_listed w abs clean find global A (known_distinct global K) N args l). Qed.
(** on Windows a path from the root of a drive is a path *)
Theorem C90_drive : forall is_abs c sl rest, AbsOk is_abs -> letter c -> slash sl ->
  split_on true is_abs (String c (String ":" (String sl rest))) = ("", String c (String ":" (String sl rest))).
Proof. exact drive_path. Qed.
(** also after the name of a parser *)
Theorem C90_parser : forall windows is_abs parser path, AbsOk is_abs -> known_as parser -> parser <> "" ->
  split_on windows is_abs (parser +s+ ":" +s+ path) = (parser, path).
Proof. exact (fun w abs a p A K N => split_back w abs a p A (known_distinct a K) (fun Q => match N Q with end)). Qed.
(** on other platforms this is what a run does *)
Theorem C90_elsewhere : forall E O is_abs s, exists e s',
  find_all_lockfiles E O s = (Ok (list_on false is_abs clean (found_in E) (o_parse_as O) (o_args O), e), s')
  /\ forall q, split_on false is_abs q = split_parse_as q.
Proof. intros E O abs s. destruct (find_all_is E O abs s) as (e & s' & H). exists e, s'. auto. Qed.
Print Assumptions C90_read.
Print Assumptions C90_drive.
Print Assumptions C90_parser.
Print Assumptions C90_elsewhere.

(** drives and shares *)
Definition ww_slash (c : ascii) : bool := Ascii.eqb c "/" || Ascii.eqb c "\".
Definition ww_abs (s : string) : bool :=
  match s with
  | String _ (String ":" (String c _)) => ww_slash c
  | String a (String b _) => ww_slash a && ww_slash b
  | _ => false
  end.
Lemma ww_slashes c : ww_slash c = true -> slash c.
Proof. unfold ww_slash. intros H. apply orb_true_iff in H as [H|H]; apply Ascii.eqb_eq in H; [left|right]; exact H. Qed.
Lemma ww_ok : AbsOk ww_abs.
Proof.
  split.
  - intros c sl rest _ [-> | ->]; reflexivity.
  - intros [|a [|b s]] H; try discriminate H. destruct (Ascii.eqb_spec b ":") as [->|N]; [left; eauto|right].
    assert (K : ww_slash a && ww_slash b = true).
    { destruct b as [[] [] [] [] [] [] [] []]; try exact H. now destruct N. }
    apply andb_true_iff in K as [K _]. exists a, (String b s). split; [now apply ww_slashes|reflexivity].
Qed.
(** a lockfile on a drive, one to be read as go.mod, one on a share and one here *)
Definition ww_find (path parse_as : string) : list string := if seqb path "D:\src" then ["D:\src\go.mod"; "D:\src\yarn.lock"] else [path].
Definition ww_args : list string := ["D:\src"; "go.mod:C:\x\deps.txt"; "\\host\s\pom.xml"; "yarn.lock"; "csv-file:C:/a.csv"].
Example C90_case : AbsOk ww_abs /\ read_on true ww_abs (list_on true ww_abs (fun p => p) ww_find "" ww_args)
  = [("", "D:\src\go.mod"); ("", "D:\src\yarn.lock"); ("go.mod", "C:\x\deps.txt"); ("", "\\host\s\pom.xml"); ("", "yarn.lock"); ("csv-file", "C:/a.csv")].
Proof.
  split; [exact ww_ok|]. apply C90_read; [exact ww_ok|now left|discriminate|].
  assert (D : forall a, known_as a -> a = "" \/ distinct a) by (intros a K; right; now apply known_distinct).
  apply (ro_arg true ww_abs (fun p => p) ww_find "" _ _ "" "D:\src" "" [("go.mod", "C:\x\deps.txt"); ("", "\\host\s\pom.xml"); ("", "yarn.lock"); ("csv-file", "C:/a.csv")]);
    [left; auto|reflexivity|auto|intros p [<-|[<-|[]]] r; discriminate|].
  apply (ro_arg true ww_abs (fun p => p) ww_find "" _ _ "go.mod" "C:\x\deps.txt" "go.mod" [("", "\\host\s\pom.xml"); ("", "yarn.lock"); ("csv-file", "C:/a.csv")]);
    [right; split; [now right|right; auto]|reflexivity|apply D; right; right; right; cbn; tauto|intros p [<-|[]] r; discriminate|].
  apply (ro_arg true ww_abs (fun p => p) ww_find "" _ _ "" "\\host\s\pom.xml" "" [("", "yarn.lock"); ("csv-file", "C:/a.csv")]);
    [left; auto|reflexivity|auto|intros p [<-|[]] r; discriminate|].
  apply (ro_arg true ww_abs (fun p => p) ww_find "" _ _ "" "yarn.lock" "" [("csv-file", "C:/a.csv")]);
    [right; split; [now right|left; auto]|reflexivity|auto|intros p [<-|[]] r; discriminate|].
  apply (ro_arg true ww_abs (fun p => p) ww_find "" _ _ "csv-file" "C:/a.csv" "csv-file" []);
    [right; split; [now right|right; auto]|reflexivity|apply D; right; now left|intros p [<-|[]] r; discriminate|apply ro_nil].
Qed.

(** a path relative to the current directory of a drive is taken for a parser,
    and so is, on other platforms, the drive of any path *)
Theorem C90_relative_refuted : exists is_abs, AbsOk is_abs
  /\ split_on true is_abs "C:go.mod" = ("C", "go.mod") /\ split_on false is_abs "C:\go.mod" = ("C", "\go.mod").
Proof. exists ww_abs. split; [exact ww_ok|]. split; reflexivity. Qed.
Print Assumptions C90_relative_refuted.
