(** pkg/lockfile/parse-yarn-lock.go:95-150 tryExtractCommit *)
From Verif Require Import GoStr Regex.

(** net/url: what tryExtractCommit uses of a parsed url; [u_ref]: the first ref
    of the query, None when the query has none *)
Record Url := mkUrl { u_host : string; u_query : string; u_ref : option string; u_fragment : string }.

(** [\w-.] *)
Definition repo_char (c : ascii) : bool := is_word c || Ascii.eqb c "-" || Ascii.eqb c ".".
Definition Words : re := Plus true Word.
Definition Any : re := Plus true Dot.
(** (?:^|.+@) *)
Definition re_pre : re := Alt Bol (Sq Any (Chr "@")).
(** parse-yarn-lock.go:97-112; the first is
    (?:^|.+@)(?:git(?:\+(?:ssh|https))?|ssh)://.+#(\w+)$ *)
Definition re_scheme : re := Alts [Sq (Lit "git") (Opt (Sq (Chr "+") (Alts [Lit "ssh"; Lit "https"]))); Lit "ssh"].
Definition matchers : list re :=
  [ Seqs [re_pre; re_scheme; Lit "://"; Any; Chr "#"; Cap 1 Words; Eol];
    Seqs [re_pre; Lit "https://"; Any; Lit ".git#"; Cap 1 Words; Eol];
    Seqs [Lit "https://codeload.github.com"; Sq (Chr "/") (Plus true (Cls repo_char)); Sq (Chr "/") (Plus true (Cls repo_char));
          Lit "/tar.gz/"; Cap 1 Words; Eol];
    Seqs [Any; Lit "#commit"; Cls (fun c => Ascii.eqb c ":" || Ascii.eqb c "="); Cap 1 Words; Eol];
    Seqs [Bol; Alts [Lit "github"; Lit "gitlab"; Lit "bitbucket"]; Chr ":"; Any; Chr "#"; Cap 1 Words; Eol] ].
(** parse-yarn-lock.go:114-121 *)
Fixpoint first_commit (l : list re) (resolution : string) : option string :=
  match l with
  | [] => None
  | r :: l' => match find r resolution with Some m => Some (group m 1) | None => first_commit l' resolution end
  end.
Definition try_extract_commit (url : string -> option Url) (resolution : string) : string :=
  match first_commit matchers resolution with
  | Some c => c
  | None =>
      match url resolution with
      | None => ""
      | Some u =>
          if mem (u_host u) ["bitbucket.org"; "github.com"; "gitlab.com"] then
            match u_ref u with
            | Some ref => if negb (seqb (u_query u) "") then ref else u_fragment u
            | None => u_fragment u
            end
          else ""
      end
  end.
