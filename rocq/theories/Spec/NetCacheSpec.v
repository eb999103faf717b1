(** Where the octets of a file in the cache come from. *)
From Coq Require Import List ZArith String.
From Verif.Model Require Import Base Str Tal TalText CertRes Roa Validator Explore Paths Cache Rrdp RrdpXml XmlLex RrdpHttp Octo NetCache.
From Verif.Spec Require Import B64 Trust Discovery EndSpec StateSpec ChainSpec RrdpSpec RrdpHttpSpec.
Import ListNotations.
Open Scope Z_scope.

Section Delivered.
Variable limit : Z.
Variables first_more second_more : Z -> bool.
Variable refuse_colons : bool.
Variable hex_sha1 : bytes -> bytes.
Variable cwd : loc.
Variable base : bytes.

(** The place of an rsync address in the cache. *)
Definition place (a : bytes) (l : loc) : Prop := exists f, a = str "rsync://" ++ f /\ l = resolve cwd (path_join base f).

(** A document that the web gave completely and within the limit has an element
    with address [a] and the base64 text of [x]. *)
Definition element (web : bytes -> answer) (a x : bytes) : Prop :=
  exists u b p w t, complete limit (web u) b /\ parse_node_octets first_more second_more refuse_colons b = XOk (p, w) /\
    In (a, t) (p ++ w) /\ b64_text (strip t) x.

(** The source delivers [x] for the place [l]. *)
Definition delivers (src : source) (l : loc) (x : bytes) : Prop :=
  match src with
  | FromRrdp domain path session serial web =>
      exists a before after, a = before ++ domain ++ after /\ place a l /\ element web a x
  | FromHttp t web =>
      place (get_rsync_uri hex_sha1 t) l /\ exists u, In u (t_uris t) /\ web u = Response 200 x None /\
        exists r, u = str "http://" ++ r \/ u = str "https://" ++ r
  | FromRsync uri files => files l = Some (File x) /\ exists d c r, place uri d /\ l = d ++ c :: r
  end.

(** [rests_from ... xs e asn]: the entry is in a certified ROA of the cache, as
    in VerdictSpec; the octets of its file were there at the start, or one of
    the sources delivered them for its place. *)
Definition rests_from (all_versions keep : bool) (sha256 : bytes -> bytes) (other_sig : list Z * bytes -> bytes -> bytes -> bytes -> bool)
    (excused : bytes -> bool) (disk before : bytes -> option bytes) (srcs : list source)
    (xs : list exploration) (e : roa_entry) (asn : Z) : Prop :=
  exists q f raw d entries, In q xs /\ In f (x_files q) /\ f_type f = TRoa /\ Discovery.holds disk f raw d /\
    certified_roa all_versions keep sha256 other_sig excused (found_in disk (x_files q)) (anchored hex_sha1 disk (x_files q))
      (x_now q) d asn entries /\ In e entries /\
    (before (compute_path f) = Some raw \/
     exists src, In src srcs /\ delivers src (resolve cwd (get_local_path (octo_map base) (compute_path f))) raw).
End Delivered.
