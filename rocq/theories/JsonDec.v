(** json.Unmarshal into Go values, on parsed JSON: null leaves the target
    alone, a value of the wrong type is an error (None), object keys match
    field names ignoring case, unknown keys are ignored, later keys overwrite
    earlier ones.  Standard library.  Simplification: a key occurring twice whose value is a list or object replaces the
    earlier value instead of being merged into it. *)
From Verif Require Import GoStr Json.

Definition dec_string (v : json) (old : string) : option string :=
  match v with JStr s => Some s | JNull => Some old | _ => None end.
Definition dec_fields {S} (set : string -> json -> S -> option S) (l : list (string * json)) (s0 : S) : option S :=
  fold_left (fun acc kv => match acc with None => None | Some s => set (fold_key (fst kv)) (snd kv) s end) l (Some s0).
(** a struct target *)
Definition dec_struct {S} (set : string -> json -> S -> option S) (s0 : S) (v : json) : option S :=
  match v with JObj l => dec_fields set l s0 | JNull => Some s0 | _ => None end.
(** a slice target *)
Fixpoint dec_all {A} (d : json -> option A) (l : list json) : option (list A) :=
  match l with
  | [] => Some []
  | x :: l' =>
      match d x, dec_all d l' with
      | Some a, Some r => Some (a :: r)
      | _, _ => None
      end
  end.
Definition dec_list {A} (d : json -> option A) (v : json) : option (list A) :=
  match v with JArr l => dec_all d l | JNull => Some [] | _ => None end.
Fixpoint digits_val (acc : Z) (s : string) : Z :=
  match s with "" => acc | String c t => digits_val (10 * acc + (Z.of_N (N_of_ascii c) - 48)) t end.
