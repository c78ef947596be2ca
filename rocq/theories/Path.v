(** path.Clean/Join and path/filepath Clean/Join/Dir/Base on a Unix system
    (standard library; the two packages agree there).  Uses in /repo are cited
    where they are called. *)
From Verif Require Import GoStr.

(** one path element against the stack of elements kept so far (in reverse) *)
Definition clean_step (rooted : bool) (stack : list string) (e : string) : list string :=
  if seqb e "" || seqb e "." then stack
  else if seqb e ".." then
    match stack with
    | top :: rest => if seqb top ".." then e :: stack else rest
    | [] => if rooted then [] else [".."]
    end
  else e :: stack.
Definition rooted (p : string) : bool := has_prefix p "/".
Definition clean_elems (p : string) : list string :=
  rev (fold_left (clean_step (rooted p)) (split_char "/" p) []).
(** Clean *)
Definition clean (p : string) : string :=
  let body := join "/" (clean_elems p) in
  if rooted p then "/" +s+ body else if seqb body "" then "." else body.
(** Join: elements are joined from the first non-empty one *)
Fixpoint drop_empty (l : list string) : list string :=
  match l with
  | e :: l' => if seqb e "" then drop_empty l' else l
  | [] => []
  end.
Definition path_join (l : list string) : string :=
  match drop_empty l with [] => "" | l' => clean (join "/" l') end.
(** Dir: Clean of everything up to and including the last slash *)
Definition path_dir (p : string) : string :=
  match cut_last "/" p with Some (b, _) => clean (b +s+ "/") | None => "." end.
(** Base: the last element, trailing slashes removed *)
Fixpoint trim_trailing_slashes (r : string) : string :=  (* on the reversed string *)
  match r with String c r' => if Ascii.eqb c "/" then trim_trailing_slashes r' else r | _ => r end.
Definition path_base (p : string) : string :=
  if seqb p "" then "."
  else
    let q := str_rev (trim_trailing_slashes (str_rev p)) in
    if seqb q "" then "/"
    else match cut_last "/" q with Some (_, a) => a | None => q end.
