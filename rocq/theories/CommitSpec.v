(** Where a resolution names a commit. *)
From Verif Require Import GoStr Commit.

(** letters, digits, underscores *)
Definition word (s : string) : Prop := s <> "" /\ str_forall is_word s = true.
Definition line_char (c : ascii) : Prop := c <> "010"%char.
Definition line_text (s : string) : Prop := s <> "" /\ str_forall (fun c => negb (Ascii.eqb c "010")) s = true.
(** nothing, or something ending in x@ *)
Definition pre_at (p : string) : Prop := p = "" \/ exists q c, line_char c /\ p = q +s+ String c "@".
Definition repo_name (s : string) : Prop := s <> "" /\ str_forall (fun c => is_word c || Ascii.eqb c "-" || Ascii.eqb c ".") s = true.
Inductive commit_of : string -> string -> Prop :=
| co_git : forall p sch x c, pre_at p -> In sch ["git"; "git+ssh"; "git+https"; "ssh"] -> line_text x -> word c ->
    commit_of (p +s+ sch +s+ "://" +s+ x +s+ "#" +s+ c) c
| co_https : forall p x c, pre_at p -> line_text x -> word c -> commit_of (p +s+ "https://" +s+ x +s+ ".git#" +s+ c) c
| co_codeload : forall p o r c, repo_name o -> repo_name r -> word c ->
    commit_of (p +s+ "https://codeload.github.com/" +s+ o +s+ "/" +s+ r +s+ "/tar.gz/" +s+ c) c
| co_commit : forall p d e c, line_char d -> In e [":"; "="] -> word c -> commit_of (p +s+ String d "#commit" +s+ e +s+ c) c
| co_host : forall h x c, In h ["github"; "gitlab"; "bitbucket"] -> line_text x -> word c -> commit_of (h +s+ ":" +s+ x +s+ "#" +s+ c) c.
(** by the url: its ref, or its fragment, for the three hosts *)
Inductive url_commit : option Url -> string -> Prop :=
| uc_ref : forall u ref, In (u_host u) ["bitbucket.org"; "github.com"; "gitlab.com"] -> u_query u <> "" -> u_ref u = Some ref -> url_commit (Some u) ref
| uc_fragment : forall u, In (u_host u) ["bitbucket.org"; "github.com"; "gitlab.com"] -> u_query u = "" \/ u_ref u = None -> url_commit (Some u) (u_fragment u)
| uc_other : forall u, ~ In (u_host u) ["bitbucket.org"; "github.com"; "gitlab.com"] -> url_commit (Some u) ""
| uc_bad : url_commit None "".
(** what a resolution gives *)
Definition resolution_commit (url : string -> option Url) (s c : string) : Prop :=
  commit_of s c \/ ((forall c', ~ commit_of s c') /\ url_commit (url s) c).
(** an https url of a registry, after https:// *)
Definition occurs (sub s : string) : Prop := exists a b, s = a +s+ sub +s+ b.
Definition plain_url (r : string) : Prop :=
  ~ occurs "://" r /\ ~ occurs ".git#" r /\ ~ occurs "#commit:" r /\ ~ occurs "#commit=" r /\ forall t, r <> "codeload.github.com/" +s+ t.
