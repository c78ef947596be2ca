(** gradle.lockfile and mix.lock: C57, C58. *)
From Verif Require Import GoStr GoStrFacts Types Scan LockIO CommitSpec LockSpec YarnSpec LineLocks LineSpec LineProofs PropsListLocks.
Local Open Scope string_scope.

(** C57: what each line makes, in order; a word about each malformed line *)
Theorem C57_gradle : forall files path ls, file_lines files path ls ->
  exists ps said, parse_gradle_lock files path = (Ok (inr ps), said) /\ makes gradle_makes ls ps
    /\ kept (fun l => gradle_bad (trim_space l)) (fun l => "skipping invalid line in gradle lockfile: " +s+ trim_space l) ls said.
Proof. exact gradle_lock. Qed.
Print Assumptions C57_gradle.
(** a line makes one thing only *)
Theorem C57_unique : forall l o o', gradle_makes l o -> gradle_makes l o' -> o = o'.
Proof. exact gradle_makes_fun. Qed.
Print Assumptions C57_unique.
Theorem C57_unread : forall files path, (forall ls, ~ file_lines files path ls) ->
  exists said, parse_gradle_lock files path = (fails_with (match files path with Gone => FRead path | _ => FScan path end), said).
Proof. exact (fun files => line_fails files gradle_line). Qed.
Print Assumptions C57_unread.
Definition gx_file : string :=
"# This is a Gradle generated file
  org.a:lib:1.0.0=compileClasspath,runtimeClasspath
nonsense:line
org.b:core:2.0:jar
empty=annotationProcessor
".
Example C57_case : file_lines (lx_file gx_file) "/l" ["# This is a Gradle generated file"; "  org.a:lib:1.0.0=compileClasspath,runtimeClasspath"; "nonsense:line"; "org.b:core:2.0:jar"; "empty=annotationProcessor"]
  /\ parse_gradle_lock (lx_file gx_file) "/l"
     = (Ok (inr [mkPkg "org.a:lib" "1.0.0" "" "Maven" "Maven"; mkPkg "org.b:core" "2.0:jar" "" "Maven" "Maven"]), ["skipping invalid line in gradle lockfile: nonsense:line"]).
Proof. split; [exists gx_file; split; [reflexivity|]|]; vm_compute; reflexivity. Qed.
Example C57_line_case : coordinates "org.a:lib:1.0.0=x" "org.a" "lib" "1.0.0" /\ gradle_bad "nonsense:line" /\ gradle_skip "empty=".
Proof.
  split; [repeat split; exists "=x"; split; [right; exists "x"|]; reflexivity|]. split; [|right; exists ""; reflexivity].
  split; [intros [(r & E)|(r & E)]; discriminate|]. intros g a v (G & A & V & c & C & E).
  assert (parse_gradle_line "nonsense:line" = inr (plain_pkg (g +s+ ":" +s+ a) v "Maven")) by (apply parse_gradle_iff; exists g, a, v; split; [|reflexivity]; repeat split; eauto). discriminate.
Qed.

(** C58 *)
Theorem C58_mix : forall files path ls, file_lines files path ls ->
  exists ps said, parse_mix_lock files path = (Ok (inr ps), said) /\ makes mix_makes ls ps /\ kept short_dep (fun _ => mix_complaint) ls said.
Proof. exact mix_lock. Qed.
Print Assumptions C58_mix.
Theorem C58_unique : forall l o o', mix_makes l o -> mix_makes l o' -> o = o'.
Proof. exact mix_makes_fun. Qed.
Print Assumptions C58_unique.
Theorem C58_unread : forall files path, (forall ls, ~ file_lines files path ls) ->
  exists said, parse_mix_lock files path = (fails_with (match files path with Gone => FRead path | _ => FScan path end), said).
Proof. exact (fun files => line_fails files mix_line). Qed.
Print Assumptions C58_unread.
Definition mx_hex : string := "  ""plug"": {:hex, :plug, ""1.11.1"", ""f2992bac"", [:mix], [], ""hexpm"", ""23524e""},".
Definition mx_git : string := "  ""foe"": {:git, ""https://x/foe.git"", ""abc123"", []},".
Definition mx_file : string := "%{
" +s+ mx_hex +s+ "
" +s+ mx_git +s+ "
  ""odd"": {:hex},
}
".
Example C58_case : file_lines (lx_file mx_file) "/l" ["%{"; mx_hex; mx_git; "  ""odd"": {:hex},"; "}"]
  /\ parse_mix_lock (lx_file mx_file) "/l"
     = (Ok (inr [mkPkg "plug" "1.11.1" "f2992bac" "Hex" "Hex"; mkPkg "foe" "" "abc123" "Hex" "Hex"]), [mix_complaint]).
Proof. split; [exists mx_file; split; [reflexivity|]|]; vm_compute; reflexivity. Qed.
Example C58_line_case : mix_dep mx_git "foe" /\ comma_fields mx_git ["  ""foe"": {:git"; " ""https://x/foe.git"""; " ""abc123"""; " []}"] /\ unquoted " ""abc123""" "abc123".
Proof.
  split; [|split].
  - exists "  ", ":git, ""https://x/foe.git"", ""abc123"", []}". repeat split; try reflexivity; discriminate.
  - apply (cf_cons "  ""foe"": {:git" " ""https://x/foe.git"", ""abc123"", []},"); try discriminate; try reflexivity.
    apply (cf_cons " ""https://x/foe.git""" " ""abc123"", []},"); try discriminate; try reflexivity.
    apply (cf_cons " ""abc123""" " []},"); try discriminate; try reflexivity. apply (cf_cons " []}" ""); try discriminate; try reflexivity. constructor.
  - apply unquoted_iff. vm_compute. reflexivity.
Qed.
