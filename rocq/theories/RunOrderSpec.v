(** Two runs that differ only in the order in which maps are iterated over. *)
From Coq Require Import Permutation.
From Verif Require Import GoStr GoMap Types Lockfile Main MainSpec.

(** the same outside world and lockfiles, but maps iterated over by [it], and
    lockfile parsers which (iterating over their own maps) behave as [im] *)
Definition with_order (E : Env) (it : Iter) (im : ParserFn -> Parser) : Env :=
  mkEnv (e_world E) (e_sem E) (e_sort E) it (e_col E) (e_text E) (e_osv_json E) (e_stat E) im (e_csv E) (e_cache_path E)
        (e_dec_yaml E) (e_enc_yaml E) (e_openable E) (e_api E) (e_version_line E).
(** no two different packages are of the same name and version *)
Definition told_apart (l : list Pkg) : Prop := forall p q, In p l -> In q l -> p_name p = p_name q -> p_version p = p_version q -> p = q.
(** two parsers do the same, or find the same packages in another order *)
Inductive same_found : PResult -> PResult -> Prop :=
| sf_same : forall r, same_found r r
| sf_found : forall ps qs e, Permutation ps qs ->
    told_apart ps ->
    same_found (Ok (ps, e)) (Ok (qs, e)).
Definition same_parsers (im im' : ParserFn -> Parser) : Prop := forall f path, same_found (im f path) (im' f path).
(** everything written to stdout and stderr *)
Definition outs (tr : list ev) : list (stream * string) := flat_map (fun e => match e with EOut _ s t => [(s, t)] | _ => [] end) tr.
(** the same to an observer who does not see in which order config files are
    rewritten *)
Record same_end (s1 s2 : St) : Prop := {
  se_outs : outs (s_trace s1) = outs (s_trace s2);
  se_trace : Permutation (s_trace s1) (s_trace s2);
  se_checks : checks (s_trace s1) = checks (s_trace s2);
  se_files : forall p, s_files s1 p = s_files s2 p;
  se_cache : s_cache s1 = s_cache s2 }.
