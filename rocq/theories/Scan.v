(** Text files and bufio.Scanner (standard library), and maps of packages. *)
From Verif Require Import GoStr Types MemDB GoMap.

(** a file: it cannot be opened, or it has a content, after which reading may
    fail *)
Inductive txt := Gone | Text (content : string) (fails : bool).

(** bufio.ScanLines: lines end with \n, one \r before it is dropped, an empty
    last line does not count; a line of 64 kB or more (bufio.MaxScanTokenSize)
    stops the scanner with an error *)
Definition max_token : N := 65536.
Definition drop_cr (s : string) : string := match strip_suffix (String "013" "") s with Some t => t | None => s end.
Fixpoint but_last (l : list string) : list string :=
  match l with [] => [] | [x] => if seqb x "" then [] else [x] | x :: l' => x :: but_last l' end.
Fixpoint str_len (s : string) : N := match s with EmptyString => 0 | String _ t => N.succ (str_len t) end.
Fixpoint scan_tokens (l : list string) : list string * bool :=
  match l with
  | [] => ([], false)
  | x :: l' => if N.leb max_token (str_len x) then ([], true)
               else let '(ts, e) := scan_tokens l' in (drop_cr x :: ts, e)
  end.
Definition scan (content : string) : list string * bool := scan_tokens (but_last (split_char "010" content)).

(** parse-npm-lock.go:34-42 pkgDetailsMapToSlice *)
Definition map_to_slice (it : Iter) (m : list (string * Pkg)) : list Pkg := map snd (it _ m).
