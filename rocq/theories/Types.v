(** internal/types.go and the advisory types of pkg/database/osv.go. *)
From Verif Require Import GoStr.

(** internal/types.go:3-11 PackageDetails (Ecosystem is a string type) *)
Record Pkg := mkPkg { p_name : string; p_version : string; p_commit : string;
                      p_eco : string; p_cmp : string }.

(** pkg/database/osv.go:29-32 Package *)
Record OPkg := mkOPkg { op_name : string; op_eco : string }.

(** pkg/database/osv.go:60-64 RangeEvent *)
Record Event := mkEv { introduced : string; fixed : string; last_affected : string }.

(** pkg/database/osv.go:66-69 AffectsRange *)
Record Range := mkRange { r_type : string; r_events : list Event }.

(** pkg/database/osv.go:175-179 Affected *)
Record Affected := mkAff { a_pkg : OPkg; a_versions : list string; a_ranges : list Range }.

(** pkg/database/osv.go:182-191 OSV.  Timestamps are opaque text: the code only
    ever tests whether Withdrawn is nil. *)
Record OSV := mkOSV { o_id : string; o_aliases : list string; o_summary : string;
                      o_published : string; o_modified : string;
                      o_withdrawn : option string; o_details : string;
                      o_affected : list Affected }.

(** The version library (github.com/google/osv-scalibr/semantic), not part of
    /repo: [sem_ok eco v] is false exactly when MustParse(v, eco) panics, and
    [sem_cmp eco a b] is the sign returned by Parse(a, eco).CompareStr(b) (0
    when CompareStr fails, as /repo drops that error). *)
Record Semantic := mkSem { sem_ok : string -> string -> bool;
                           sem_cmp : string -> string -> string -> Z }.
