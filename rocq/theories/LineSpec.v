(** gradle.lockfile and mix.lock: lines. *)
From Verif Require Import GoStr Types Scan LockIO CommitSpec LockSpec YarnSpec.
Local Open Scope string_scope.

(** what is said of the lines of a kind *)
Inductive kept {A B} (P : A -> Prop) (f : A -> B) : list A -> list B -> Prop :=
| kp_nil : kept P f [] []
| kp_keep : forall a l bs, P a -> kept P f l bs -> kept P f (a :: l) (f a :: bs)
| kp_drop : forall a l bs, ~ P a -> kept P f l bs -> kept P f (a :: l) bs.
(** ** gradle: group:artifact:version, or group:artifact:version=configurations *)
Definition gradle_skip (t : string) : Prop := (exists r, t = "#" +s+ r) \/ exists r, t = "empty=" +s+ r.
Definition colon_free (s : string) : Prop := has_char ":" s = false.
Definition coordinates (t g a v : string) : Prop :=
  colon_free g /\ colon_free a /\ has_char "=" v = false /\ exists c, (c = "" \/ exists r, c = "=" +s+ r) /\ t = g +s+ ":" +s+ a +s+ ":" +s+ v +s+ c.
Definition gradle_bad (t : string) : Prop := ~ gradle_skip t /\ forall g a v, ~ coordinates t g a v.
Definition gradle_makes (l : string) (o : option Pkg) : Prop :=
  (gradle_skip (trim_space l) \/ gradle_bad (trim_space l)) /\ o = None
  \/ ~ gradle_skip (trim_space l) /\ exists g a v, coordinates (trim_space l) g a v /\ o = Some (plain_pkg (g +s+ ":" +s+ a) v "Maven").
(** ** mix *)
(** the pieces between commas that are not empty *)
Inductive comma_fields : string -> list string -> Prop :=
| cf_nil : comma_fields "" []
| cf_comma : forall s fs, comma_fields s fs -> comma_fields ("," +s+ s) fs
| cf_last : forall f, f <> "" -> has_char "," f = false -> comma_fields f [f]
| cf_cons : forall f s fs, f <> "" -> has_char "," f = false -> comma_fields s fs -> comma_fields (f +s+ "," +s+ s) (f :: fs).
Definition mix_dep (l name : string) : Prop :=
  exists sp x, sp <> "" /\ str_forall (fun c => Ascii.eqb c " ") sp = true /\ word name /\ line_text x
    /\ l = sp +s+ quote +s+ name +s+ quote +s+ ": {" +s+ x +s+ ",".
(** without spaces around it and without one quote at each end *)
Definition unquoted (s v : string) : Prop :=
  exists u, (trim_space s = quote +s+ u \/ trim_space s = u /\ forall r, u <> quote +s+ r)
            /\ (u = v +s+ quote \/ u = v /\ forall r, v <> r +s+ quote).
Definition short_dep (l : string) : Prop := exists name fs, mix_dep l name /\ comma_fields l fs /\ List.length fs < 4.
Inductive mix_makes (l : string) : option Pkg -> Prop :=
| mm_other : (forall name, ~ mix_dep l name) -> mix_makes l None
| mm_short : short_dep l -> mix_makes l None
| mm_git : forall name f0 f1 f2 f3 fs c, mix_dep l name -> comma_fields l (f0 :: f1 :: f2 :: f3 :: fs) -> (exists p, f0 = p +s+ ":git") -> unquoted f2 c ->
    mix_makes l (Some (mkPkg name "" c "Hex" "Hex"))
| mm_dep : forall name f0 f1 f2 f3 fs v c, mix_dep l name -> comma_fields l (f0 :: f1 :: f2 :: f3 :: fs) -> (forall p, f0 <> p +s+ ":git") -> unquoted f2 v -> unquoted f3 c ->
    mix_makes l (Some (mkPkg name v c "Hex" "Hex")).
