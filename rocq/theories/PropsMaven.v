(** C55: pom.xml *)
From Verif Require Import GoStr GoStrFacts Types Regex GoMap Scan LockIO LockSpec MavenLock MavenSpec GemProofs MavenProofs PropsListLocks.
Local Open Scope string_scope.

(** every name once, as the winning declaration has it, whatever the order of
    the map; and what is said on stderr, in the order of the declarations *)
Theorem C55_maven : forall it files xml path content cs ds, IterOk it -> files path = Text content false -> xml content = Some (XElem "project" cs) -> declared cs ds ->
  exists ps said, parse_maven_lock it files xml path = (Ok (inr ps), said)
    /\ NoDup (map p_name ps) /\ (forall p, In p ps <-> exists d s, wins ds d /\ maven_pkg cs d p s)
    /\ exists ss, Forall2 (fun d s => exists p, maven_pkg cs d p s) ds ss /\ said = concat ss.
Proof. exact maven_lock. Qed.
Print Assumptions C55_maven.
Theorem C55_unread : forall it files xml path, (forall content cs, files path = Text content false -> xml content <> Some (XElem "project" cs)) ->
  parse_maven_lock it files xml path = (fails_with (match files path with Text _ false => FParse path | _ => FRead path end), []).
Proof. exact maven_unread. Qed.
Print Assumptions C55_unread.
(** every document declares one list of dependencies, each with one version *)
Theorem C55_document : forall cs, exists ds, declared cs ds /\ forall ds', declared cs ds' -> ds' = ds.
Proof. intros cs. destruct (declared_total cs) as (ds & D). exists ds. split; [exact D|]. intros ds' D'. exact (declared_fun _ _ _ D' D). Qed.
Print Assumptions C55_document.
Theorem C55_version : forall cs d, exists p s, maven_pkg cs d p s /\ forall q t, maven_pkg cs d q t -> q = p /\ t = s.
Proof. intros cs d. destruct (maven_pkg_total cs d) as (p & s & M). exists p, s. split; [exact M|]. intros q t M'. exact (maven_pkg_fun _ _ _ _ _ _ M' M). Qed.
Print Assumptions C55_version.
(** [v], [v,w), (v,w] and so on *)
Theorem C55_range : forall v t, has_char "010" v = false -> free v -> (forall c r, v +s+ t = String c r -> ~ opening c) -> ends t ->
  lower_bound (v +s+ t) v /\ lower_bound ("[" +s+ v +s+ t) v /\ lower_bound ("(" +s+ v +s+ t) v.
Proof.
  intros v t V F O E. split; [|split]; [apply (bound_here "")|apply (bound_here "[")|apply (bound_here "(")]; auto; [right; auto|left; exists "["%char; split; [now left|reflexivity]|left; exists "("%char; split; [now right|reflexivity]].
Qed.
Print Assumptions C55_range.
Theorem C55_property : forall p, p <> "" -> has_char "010" p = false -> interpolates ("${" +s+ p +s+ "}") p.
Proof.
  intros p N L. exists "", "". split; [repeat split; auto|]. split; [intros; cbn; lia|]. intros p' b' (E & _). cbn in E. injection E as E. apply (f_equal String.length) in E. rewrite !slen_app in E. cbn in E. lia.
Qed.
Print Assumptions C55_property.

Definition el (n t : string) : xnode := XElem n [XText t].
Definition mx_dep (g a v : string) : xnode := XElem "dependency" [el "groupId" g; el "artifactId" a; el "version" v].
Definition mx_pom : list xnode :=
  [el "modelVersion" "4.0.0"; XElem "properties" [el "v" "[2.1,3)"];
   XElem "dependencies" [mx_dep "g" "a" "${v}"; mx_dep "g" "b" "1.0"; mx_dep "g" "c" "(,1]"; mx_dep "g" "d" "${w}"];
   XElem "dependencyManagement" [XElem "dependencies" [mx_dep "g" "b" "9"; mx_dep "h" "e" "(1.5]"]]].
Definition mx_deps : list dep :=
  [mkDep "g" "b" "9"; mkDep "h" "e" "(1.5]"; mkDep "g" "a" "${v}"; mkDep "g" "b" "1.0"; mkDep "g" "c" "(,1]"; mkDep "g" "d" "${w}"].
Example C55_case : declared mx_pom mx_deps /\ wins mx_deps (mkDep "g" "b" "1.0")
  /\ parse_maven_lock lx_iter (lx_file "pom") (fun _ => Some (XElem "project" mx_pom)) "/l"
     = (Ok (inr [plain_pkg "g:b" "1.0" "Maven"; plain_pkg "h:e" "1.5" "Maven"; plain_pkg "g:a" "2.1" "Maven"; plain_pkg "g:c" "0" "Maven"; plain_pkg "g:d" "0" "Maven"]),
        ["Failed to resolve version of g:d: property ""w"" could not be found
"]).
Proof.
  split; [|split; [|vm_compute; reflexivity]].
  - exists [mkDep "g" "b" "9"; mkDep "h" "e" "(1.5]"], [mkDep "g" "a" "${v}"; mkDep "g" "b" "1.0"; mkDep "g" "c" "(,1]"; mkDep "g" "d" "${w}"].
    split; [apply declared_at_iff; vm_compute; reflexivity|]. split; [apply declared_at_iff; vm_compute; reflexivity|reflexivity].
  - exists [mkDep "g" "b" "9"; mkDep "h" "e" "(1.5]"; mkDep "g" "a" "${v}"], [mkDep "g" "c" "(,1]"; mkDep "g" "d" "${w}"]. split; [reflexivity|]. intros e [<-|[<-|[]]]; vm_compute; discriminate.
Qed.
Example C55_range_case : lower_bound "[1.0,2.0)" "1.0" /\ lower_bound "(,1.0],[1.2,)" "" /\ lower_bound "1.0" "1.0" /\ property mx_pom "v" "[2.1,3)".
Proof.
  split; [|split; [|split]].
  - apply (C55_range "1.0" ",2.0)"); try reflexivity; [apply free_iff; reflexivity|intros c r E; injection E as <- _; intros [O|O]; discriminate|right; exists ","%char, "2.0)"; split; [reflexivity|now left]].
  - apply (C55_range "" ",1.0],[1.2,)"); try reflexivity; [apply free_iff; reflexivity|intros c r E; injection E as <- _; intros [O|O]; discriminate|right; exists ","%char, "1.0],[1.2,)"; split; [reflexivity|now left]].
  - apply (C55_range "1.0" ""); try reflexivity; [apply free_iff; reflexivity|intros c r E; injection E as <- _; intros [O|O]; discriminate|now left].
  - exact (property_get mx_pom "v").
Qed.
(** a property that names another is not followed *)
Example C55_nested_case : let cs := [XElem "properties" [el "v" "${w}"; el "w" "1.2"]; XElem "dependencies" [mx_dep "g" "a" "${v}"]] in
  parse_maven_lock lx_iter (lx_file "pom") (fun _ => Some (XElem "project" cs)) "/l" = (Ok (inr [plain_pkg "g:a" "${w}" "Maven"]), []).
Proof. vm_compute. reflexivity. Qed.
(** What is around a property is dropped. *)
Definition interpolates_in_place : Prop := forall it files xml path content cs d a b p val ps said,
  IterOk it -> files path = Text content false -> xml content = Some (XElem "project" cs) -> declared cs [d] ->
  dep_version d = a +s+ "${" +s+ p +s+ "}" +s+ b -> has_char "$" p = false -> property cs p val -> free (a +s+ val +s+ b) -> has_char "[" (a +s+ val +s+ b) = false -> has_char "(" (a +s+ val +s+ b) = false ->
  parse_maven_lock it files xml path = (Ok (inr ps), said) -> exists q, In q ps /\ p_version q = a +s+ val +s+ b.
Theorem C55_in_place_refuted : ~ interpolates_in_place.
Proof.
  intros H. set (cs := [XElem "properties" [el "v" "1.2"]; XElem "dependencies" [mx_dep "g" "a" "${v}.Final"]]).
  destruct (H lx_iter (lx_file "pom") (fun _ => Some (XElem "project" cs)) "/l" "pom" cs (mkDep "g" "a" "${v}.Final") "" ".Final" "v" "1.2" [plain_pkg "g:a" "1.2" "Maven"] [] lx_iter_ok eq_refl eq_refl) as (q & Q & V); try reflexivity.
  - exists [], [mkDep "g" "a" "${v}.Final"]. split; [apply declared_at_iff; reflexivity|]. split; [apply declared_at_iff; reflexivity|reflexivity].
  - exact (property_get cs "v").
  - apply free_iff. reflexivity.
  - destruct Q as [<-|[]]. discriminate.
Qed.
Print Assumptions C55_in_place_refuted.
