(** From downloads to the cache the validator reads: what one fetch over RRDP
    (octorpki.go:427-441), one download of the certificate of a TAL (629-663,
    714-754) and one run of rsync (550-577) leave in the cache, and
    sync/lib/fetch.go:50-61, 93-98, the reading of a file. *)
From Coq Require Import String.
From Verif.Model Require Import Base Str Base64 Tal TalText Paths Validator Cache Rrdp RrdpXml XmlLex RrdpHttp Pool Octo.

(** fetch.go:37-61: what ioutil.ReadFile gives for the path of a file. *)
Definition disk_of (cwd : loc) (base : bytes) (s : fs) (p : bytes) : option bytes :=
  match s (resolve cwd (get_local_path (octo_map base) p)) with
  | Some (File x) => Some x
  | _ => None
  end.

(** Something that changes the cache.  The web answers a fetch over RRDP and
    the download for a TAL; rsync (not part of /repo) leaves any files strictly
    below the directory it was given, and nothing else. *)
Inductive source :=
| FromRrdp (domain path session : bytes) (serial : Z) (web : bytes -> answer)
| FromHttp (t : tal) (web : bytes -> answer)
| FromRsync (uri : bytes) (files : fs).

Definition strictly_under (d l : loc) : bool := leq (firstn (List.length d) l) d && negb (leq l d).

Section Run.
  Variable limit : Z.
  Variables first_more second_more : Z -> bool.
  Variable refuse_colons : bool.
  Variable cb_text : event -> fs -> bytes.
  Variable bad_at : bytes -> Z.
  Variable failover : bool.
  Variable hex_sha1 : bytes -> bytes.
  Variable cwd : loc.
  Variable base : bytes.

  Definition got_http (web : bytes -> answer) (u : bytes) : option bytes :=
    match get_http u [] (web u) with inl b => Some b | inr _ => None end.
  Definition run_source (x : source) (s : fs) : fs :=
    match x with
    | FromRrdp domain path session serial web =>
        fst (fst (fetch_http limit first_more second_more refuse_colons fs (octo_cb cwd base domain) cb_text bad_at
                    web path session serial s))
    | FromHttp t web => fst (fst (fetch_tal failover hex_sha1 cwd base (got_http web) t s))
    | FromRsync uri files =>
        match rsync_mkdir cwd base uri s, rsync_dest cwd base uri with
        | (s', VOk), Some d => fun l => if strictly_under d l then files l else s' l
        | (s', _), _ => s'
        end
    end.
  Definition run_sources (l : list source) (s : fs) : fs := fold_left (fun s x => run_source x s) l s.
End Run.
