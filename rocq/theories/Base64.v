(** encoding/base64 StdEncoding (standard library), as json.Marshal and
    json.Unmarshal use it for []byte (the "body" of pkg/database/zip.go:38). *)
From Verif Require Import GoStr.

Definition b64_alphabet : string := "ABCDEFGHIJKLMNOPQRSTUVWXYZabcdefghijklmnopqrstuvwxyz0123456789+/".
Definition b64_char (n : N) : ascii := match String.get (N.to_nat n) b64_alphabet with Some c => c | None => "="%char end.
Fixpoint index_of (c : ascii) (s : string) (i : N) : option N :=
  match s with "" => None | String d s' => if Ascii.eqb c d then Some i else index_of c s' (i + 1)%N end.
Definition b64_val (c : ascii) : option N := index_of c b64_alphabet 0.

Definition byte (n : N) : ascii := ascii_of_N n.
(** EncodeToString *)
Fixpoint b64_enc (s : string) : string :=
  match s with
  | "" => ""
  | String a "" =>
      let n := (N_of_ascii a * 16)%N in
      String (b64_char (n / 64)) (String (b64_char (n mod 64)) "==")
  | String a (String b "") =>
      let n := (N_of_ascii a * 1024 + N_of_ascii b * 4)%N in
      String (b64_char (n / 4096)) (String (b64_char (n / 64 mod 64)) (String (b64_char (n mod 64)) "="))
  | String a (String b (String c r)) =>
      let n := (N_of_ascii a * 65536 + N_of_ascii b * 256 + N_of_ascii c)%N in
      String (b64_char (n / 262144)) (String (b64_char (n / 4096 mod 64))
        (String (b64_char (n / 64 mod 64)) (String (b64_char (n mod 64)) (b64_enc r))))
  end.

(** Decode: line breaks are skipped, the rest comes in groups of four, the
    last of which may be padded; unused low bits are ignored *)
Fixpoint drop_breaks (s : string) : string :=
  match s with
  | "" => ""
  | String c r => if Ascii.eqb c "010" || Ascii.eqb c "013" then drop_breaks r else String c (drop_breaks r)
  end.
Fixpoint b64_groups (s : string) : option string :=
  match s with
  | "" => Some ""
  | String c1 (String c2 (String c3 (String c4 r))) =>
      match b64_val c1, b64_val c2 with
      | Some v1, Some v2 =>
          match b64_val c3 with
          | None => if Ascii.eqb c3 "=" && Ascii.eqb c4 "=" && seqb r ""
                    then Some (String (byte ((v1 * 64 + v2) / 16)) "") else None
          | Some v3 =>
              match b64_val c4 with
              | None => if Ascii.eqb c4 "=" && seqb r ""
                        then let n := (v1 * 4096 + v2 * 64 + v3)%N in
                             Some (String (byte (n / 1024)) (String (byte (n / 4 mod 256)) "")) else None
              | Some v4 =>
                  match b64_groups r with
                  | None => None
                  | Some t =>
                      let n := (v1 * 262144 + v2 * 4096 + v3 * 64 + v4)%N in
                      Some (String (byte (n / 65536)) (String (byte (n / 256 mod 256)) (String (byte (n mod 256)) t)))
                  end
              end
          end
      | _, _ => None
      end
  | _ => None
  end.
Definition b64_dec (s : string) : option string := b64_groups (drop_breaks s).
