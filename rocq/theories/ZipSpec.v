(** Specification of zip databases in terms of what a load asks the server,
    returns and writes. *)
From Verif Require Import GoStr Types Json MemDBSpec ZipDB.
Local Open Scope Z_scope.

(** a load of [url] that finds [file] behaves as one without a cache *)
Definition uncached (url : string) (file : option string) : Prop :=
  forall offline answer, fetch_zip url offline file answer = fetch_zip url offline None answer.

(** a load of [url] that finds [file] works from the download [d]: offline it
    returns that archive and date; online it presents that download's etag and
    date and, told 304, returns that download's archive and date.  (JSON text
    cannot hold invalid UTF-8; [to_valid] leaves UTF-8 headers alone.) *)
Definition works_from (url : string) (file : option string) (d : download) : Prop :=
  (forall answer, fetch_zip url true file answer = mkF (Ok (inr (d_body d, to_valid (d_date d)))) None [])
  /\ (forall answer, let rq := mkReq url (Some (to_valid (d_etag d), to_valid (d_date d))) in
        (answer rq <> ZInvalid -> f_reqs (fetch_zip url false file answer) = [rq])
        /\ (forall e dt b, answer rq = ZResp 304 e dt b ->
              fetch_zip url false file answer = mkF (Ok (inr (d_body d, to_valid (d_date d)))) None [rq])).

(** an honest server whose current archive at [url] is [body] with [etag]:
    status 200 carries the current archive, status 304 is only given to someone
    presenting its etag *)
Definition honest (url etag body : string) (answer : zreq -> zresp) : Prop :=
  forall rq, rq_url rq = url ->
    (forall e dt b, answer rq = ZResp 200 e dt (Some b) -> b = body)
    /\ (forall e dt b, answer rq = ZResp 304 e dt b -> exists d, rq_cond rq = Some (etag, d)).

(** the entries of an archive that are loaded *)
Definition wanted (wd : string) (dec_osv : string -> OSV * bool) (e : string * option string) (o : OSV) : Prop :=
  (exists rest, fst e = wd +s+ rest) /\ (exists stem, fst e = stem +s+ ".json")
  /\ exists content, snd e = Some content /\ dec_osv content = (o, false).
Inductive archive_osvs (wd : string) (dec_osv : string -> OSV * bool) : list (string * option string) -> list OSV -> Prop :=
| ao_nil : archive_osvs wd dec_osv [] []
| ao_take : forall e l o os, wanted wd dec_osv e o -> archive_osvs wd dec_osv l os -> archive_osvs wd dec_osv (e :: l) (o :: os)
| ao_skip : forall e l os, (forall o, ~ wanted wd dec_osv e o) -> archive_osvs wd dec_osv l os -> archive_osvs wd dec_osv (e :: l) os.
