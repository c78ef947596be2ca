(** requirements.txt: C06 (its second half), C45, C46, C47, C48. *)
From Verif Require Import GoStr Types Osv OsvSpec GoMap Path Scan ScanProofs PkgMapSpec Requirements RequirementsSpec ReqLines RequirementsProofs.

Definition rx_iter : Iter := fun _ m => m.
Lemma rx_iter_ok : IterOk rx_iter. Proof. intros A m. apply Permutation_refl. Qed.
Fixpoint rx_text (ls : list string) : string := match ls with [] => "" | l :: ls' => l +s+ nl +s+ rx_text ls' end.
Definition rx_files (p : string) : txt :=
  if seqb p "/p/requirements.txt" then Text (rx_text ["# ours"; "-r sub/dev.txt"; "Django_REST[x]==2.0 ; a  # web"; "requests>=1.\"; "5"; "--no-index"]) false
  else if seqb p "/p/sub/dev.txt" then Text (rx_text ["-r ../requirements.txt"; "black"; "requests >= 1.5"]) false
  else if seqb p "/p/clash.txt" then Text (rx_text ["a@b"; "a==b@0.0.0"]) false
  else if seqb p "/p/bad.txt" then Text (rx_text ["black"; "-r gone.txt"]) false
  else Gone.

(** C06: a name in requirements.txt is normalised like the name in an advisory *)
Theorem C06_requirements : forall name, has_char "[" name = false ->
  normalized_requirement_name name = normalized_name (mkOPkg name "PyPI").
Proof. exact requirement_name_same. Qed.
Print Assumptions C06_requirements.
Theorem C06_requirements_extras : forall name, normalized_requirement_name name = pep503 (upto "[" name).
Proof. exact requirement_name. Qed.
Print Assumptions C06_requirements_extras.
Example C06_requirements_case : normalized_requirement_name "My_.-Lib" = "my-lib" /\ normalized_name (mkOPkg "mY.lIB" "PyPI") = "my-lib"
  /\ normalized_requirement_name "My_Lib[a-b]" = "my-lib".
Proof. vm_compute. auto. Qed.

(** C45: parsing ends, whatever includes what *)
Theorem C45_terminates : forall it files D path, (forall p, files p <> Gone -> In p D) ->
  exists result, forall depth, List.length D + 2 <= depth -> parse_requirements_txt it files depth path = Some result.
Proof. exact (fun it files D path FIN => parse_ends it files D FIN path). Qed.
Print Assumptions C45_terminates.
(** it reports exactly the requirements of the files reachable from it *)
Theorem C45_exact : forall it files depth path ps, IterOk it ->
  parse_requirements_txt it files depth path = Some (inr ps) ->
  (forall q p, reach files path q -> requires files q p -> has_char "@" (p_version p) = false) ->
  NoDup ps /\ forall p, In p ps <-> exists q, reach files path q /\ requires files q p.
Proof. exact (fun it files depth path ps IT => parse_exact it IT files depth path ps). Qed.
Print Assumptions C45_exact.
(** in general: once per name@version *)
Theorem C45_keys : forall it files depth path ps, IterOk it ->
  parse_requirements_txt it files depth path = Some (inr ps) ->
  NoDup (map (fun p => p_name p +s+ "@" +s+ p_version p) ps)
  /\ (forall p, In p ps -> exists q, reach files path q /\ requires files q p)
  /\ forall q p, reach files path q -> requires files q p -> In (p_name p +s+ "@" +s+ p_version p) (map (fun p => p_name p +s+ "@" +s+ p_version p) ps).
Proof. exact (fun it files depth path ps IT H => proj2 (parse_ok it IT files depth path ps H)). Qed.
Print Assumptions C45_keys.
(** it succeeds iff every reachable file can be read *)
Theorem C45_success : forall it files D path, IterOk it -> (forall p, files p <> Gone -> In p D) ->
  ((exists ps, parse_requirements_txt it files (List.length D + 2) path = Some (inr ps))
   <-> forall q, reach files path q -> readable files q).
Proof.
  exact (fun it files D path IT FIN => conj
    (fun H => match H with ex_intro _ ps E => proj1 (parse_ok it IT files _ path ps E) end)
    (fun R => match parse_success it files D path FIN R with ex_intro _ ps E => ex_intro _ ps (E _ (le_n _)) end)).
Qed.
Print Assumptions C45_success.
(** an error: some reachable file cannot be read *)
Theorem C45_error : forall it files depth path e, parse_requirements_txt it files depth path = Some (inl e) ->
  exists q, reach files path q /\ ~ readable files q.
Proof. exact (fun it files depth path e => parse_err it files depth path e). Qed.
Print Assumptions C45_error.
Example C45_case : parse_requirements_txt rx_iter rx_files 6 "/p/requirements.txt"
  = Some (inr [mkPkg "django-rest" "2.0" "" "PyPI" "PyPI"; mkPkg "requests" "1.5" "" "PyPI" "PyPI"; mkPkg "black" "0.0.0" "" "PyPI" "PyPI"])
  /\ parse_requirements_txt rx_iter rx_files 6 "/p/bad.txt" = Some (inl (RqInclude "-r gone.txt" (RqOpen "/p/gone.txt"))).
Proof. split; vm_compute; reflexivity. Qed.
(** two requirements with the same name@version are taken for one *)
Theorem C45_clash_refuted : exists files path p p' ps,
  requires files path p /\ requires files path p' /\ (p_name p, p_version p) <> (p_name p', p_version p')
  /\ parse_requirements_txt rx_iter files 6 path = Some (inr ps) /\ ps = [p'].
Proof.
  exists rx_files, "/p/clash.txt", (mkPkg "a@b" "0.0.0" "" "PyPI" "PyPI"), (mkPkg "a" "b@0.0.0" "" "PyPI" "PyPI"), [mkPkg "a" "b@0.0.0" "" "PyPI" "PyPI"].
  assert (F : rx_files "/p/clash.txt" = Text (rx_text ["a@b"; "a==b@0.0.0"]) false) by reflexivity.
  repeat split; try (apply (line_of_kinds _ _ _ _ _ F); vm_compute; tauto). discriminate.
Qed.
Print Assumptions C45_clash_refuted.

(** C46: what a line asks for *)
Theorem C46_line : forall line p, requirement line p <-> p = parse_line line.
Proof. exact (fun line p => conj (fun R => requirement_fun _ _ _ R (parse_line_is line)) (fun E => eq_ind_r (requirement line) (parse_line_is line) E)). Qed.
Print Assumptions C46_line.
(** a single constraint between a name and a version without constraint symbols *)
Definition no_symbols (s : string) : Prop := str_forall (fun c => negb (mem (String c "") ["="; ">"; "~"; "!"])) s = true.
Theorem C46_single : forall name op version, no_symbols name -> no_symbols version -> In op ["=="; ">="; "~="; "!="] ->
  parse_line (name +s+ op +s+ version)
  = mkPkg (pep503 (upto "[" (trim_space name))) (if seqb op "!=" then "0.0.0" else upto " " (trim_space version)) "" "PyPI" "PyPI".
Proof. exact single_op. Qed.
Print Assumptions C46_single.
Theorem C46_unconstrained : forall name, no_symbols name -> parse_line name = mkPkg (pep503 (upto "[" name)) "0.0.0" "" "PyPI" "PyPI".
Proof. exact no_op. Qed.
Print Assumptions C46_unconstrained.
Example C46_case : parse_line "Flask_Login[x] ~= 1.2 ; y" = mkPkg "flask-login" "1.2" "" "PyPI" "PyPI"
  /\ parse_line "a != 3" = mkPkg "a" "0.0.0" "" "PyPI" "PyPI" /\ no_symbols "Flask_Login[x] " /\ no_symbols " 1.2 ; y".
Proof. vm_compute. auto. Qed.
(** an upper bound becomes part of the name *)
Theorem C46_upper_refuted : parse_line "django<2" = mkPkg "django<2" "0.0.0" "" "PyPI" "PyPI"
  /\ parse_line "a===1" = mkPkg "a" "=1" "" "PyPI" "PyPI" /\ parse_line "requests [security]==2" = mkPkg "requests " "2" "" "PyPI" "PyPI".
Proof. vm_compute. auto. Qed.
Print Assumptions C46_upper_refuted.

(** C47 *)
Theorem C47_continued : forall line, is_line_continuation line = true <-> continued line.
Proof. exact continuation_iff. Qed.
Print Assumptions C47_continued.
Theorem C47_joined : forall ts ls, joined ts ls <-> ls = logical ts.
Proof. exact joined_logical. Qed.
Print Assumptions C47_joined.
Example C47_case : is_line_continuation "a\\\" = true /\ is_line_continuation "a\\" = false
  /\ logical ["a\"; "b"; "c\\"; "d\"] = ["ab"; "c\\"; "d"].
Proof. vm_compute. auto. Qed.

(** C48 *)
Theorem C48_comment : forall line, has_char "010" line = false -> remove_comments line = trim_space (before_comment true line).
Proof. exact (fun line H => remove_comments_eq line (proj1 (nl_free_char line) H)). Qed.
Print Assumptions C48_comment.
Theorem C48_skipped : forall s, is_not_requirement_line s = true <-> skipped s.
Proof. exact not_req_iff. Qed.
Print Assumptions C48_skipped.
(** lines, with either line ending *)
Theorem C48_lines : forall ls last, Forall (fun x => line_ok (fst x)) ls -> last = "" \/ line_ok last ->
  scan (text_of ls last) = (map fst ls ++ (if seqb last "" then [] else [last]), false).
Proof. exact scan_text. Qed.
Print Assumptions C48_lines.
Theorem C48_too_long : forall content,
  snd (scan content) = false <-> Forall (fun l => (str_len l < 65536)%N) (split_char "010" content).
Proof. exact scan_long. Qed.
Print Assumptions C48_too_long.
Example C48_case : remove_comments "a#b  #c" = "a#b" /\ remove_comments "#c" = "" /\ remove_comments " a # b # c " = "a"
  /\ line_ok "a" /\ scan (text_of [("a", true); ("", false)] "b") = (["a"; ""; "b"], false)
  /\ is_not_requirement_line "https://x" = true /\ is_not_requirement_line "a" = false.
Proof.
  repeat split; try reflexivity. intros [|c [|d q]]; cbn; congruence.
Qed.
