(** The file in which the state of RRDP is kept between rounds and runs, and
    the text in which the list of ROAs is given out. *)
From Coq Require Import String.
From Verif.Model Require Import Base Str Der Json Output RrdpXml.

(** octorpki.go:179-184 RRDPInfo *)
Record rrdp_info := mkInfo { ri_rsync : bytes; ri_path : bytes; ri_session : bytes; ri_serial : Z }.
Definition zero_info : rrdp_info := mkInfo [] [] [] 0.

(** A Go map as a list of its entries, whose order has no meaning. *)
Fixpoint alook {A} (m : list (bytes * A)) (k : bytes) : option A :=
  match m with
  | [] => None
  | (k', a) :: r => if beq k' k then Some a else alook r k
  end.
Definition aset {A} (m : list (bytes * A)) (k : bytes) (a : A) : list (bytes * A) :=
  filter (fun e => negb (beq (fst e) k)) m ++ [(k, a)].

(** octorpki.go:179-184, the tags of the fields: what Marshal writes for one
    entry. *)
Definition info_json (i : rrdp_info) : json :=
  JObj [(str "rsync", JStr (ri_rsync i)); (str "path", JStr (ri_path i));
        (str "sessionid", JStr (ri_session i)); (str "serial", JNum (dec (ri_serial i)))].

(** octorpki.go:388-400 saveRRDPInfo: the contents of the file.  Marshal writes
    the entries of a map sorted by their keys. *)
Definition save_text (m : list (bytes * rrdp_info)) : bytes :=
  enc_json (JObj (map (fun k => (k, info_json (match alook m k with Some i => i | None => zero_info end)))
                      (sort_lines (map fst m)))).

(** The comparison of names of fields: foldFunc of encoding/json, for names
    made of small letters. *)
Fixpoint fold_name (s : bytes) : bytes :=
  match s with
  | [] => []
  | b :: r =>
      match r with
      | c :: r1 =>
          if (b =? 197) && (c =? 191) then 115 :: fold_name r1
          else match r1 with
               | d :: r2 =>
                   if (b =? 226) && (c =? 132) && (d =? 170) then 107 :: fold_name r2
                   else (if in_range 65 90 b then b + 32 else b) :: fold_name r
               | [] => (if in_range 65 90 b then b + 32 else b) :: fold_name r
               end
      | [] => [if in_range 65 90 b then b + 32 else b]
      end
  end.

(** decodeState.literalStore into a string or an int64: the value and whether
    there was no error; null changes nothing. *)
Definition store_str (v : json) (cur : bytes) : bytes * bool :=
  match v with JStr s => (s, true) | JNull => (cur, true) | _ => (cur, false) end.
Definition store_int (v : json) (cur : Z) : Z * bool :=
  match v with
  | JNum t => match RrdpXml.parse_int64 t with Some n => (n, true) | None => (cur, false) end
  | JNull => (cur, true)
  | _ => (cur, false)
  end.
(** decodeState.object into an RRDPInfo *)
Definition store_field (st : rrdp_info * bool) (f : bytes * json) : rrdp_info * bool :=
  let '(i, ok) := st in
  let k := fold_name (fst f) in
  if beq k (str "rsync") then
    let '(x, o) := store_str (snd f) (ri_rsync i) in (mkInfo x (ri_path i) (ri_session i) (ri_serial i), ok && o)
  else if beq k (str "path") then
    let '(x, o) := store_str (snd f) (ri_path i) in (mkInfo (ri_rsync i) x (ri_session i) (ri_serial i), ok && o)
  else if beq k (str "sessionid") then
    let '(x, o) := store_str (snd f) (ri_session i) in (mkInfo (ri_rsync i) (ri_path i) x (ri_serial i), ok && o)
  else if beq k (str "serial") then
    let '(x, o) := store_int (snd f) (ri_serial i) in (mkInfo (ri_rsync i) (ri_path i) (ri_session i) x, ok && o)
  else st.
Definition store_info (v : json) : rrdp_info * bool :=
  match v with
  | JObj l => fold_left store_field l (zero_info, true)
  | JNull => (zero_info, true)
  | _ => (zero_info, false)
  end.
(** decodeState.object into the map: an entry is stored also when some of its
    fields could not be.  [None] is a nil map. *)
Definition store_map (v : json) : option (list (bytes * rrdp_info)) * bool :=
  match v with
  | JObj l =>
      let '(m, ok) := fold_left (fun st e =>
        let '(i, o) := store_info (snd e) in (aset (fst st) (fst e) i, snd st && o)) l ([], true) in (Some m, ok)
  | JNull => (None, true)
  | _ => (Some [], false)
  end.
(** octorpki.go:370-386 LoadRRDPInfo, after the file was read: the map, and
    whether there was no error. *)
Definition load_text (s : bytes) : option (list (bytes * rrdp_info)) * bool :=
  match parse_json s with
  | JOk v _ => store_map v
  | _ => (Some [], false)
  end.

(** octorpki.go:1647-1669 doRRDP: a round, from the state in memory and the
    file ([None] if it cannot be read) to the new state and file.  [fetch] is
    mainRRDP, which panics when it has to write to a nil map.  Writing the file
    is taken to succeed. *)
Definition do_rrdp (fetch : option (list (bytes * rrdp_info)) -> go (list (bytes * rrdp_info)))
  (st : option (list (bytes * rrdp_info))) (file : option bytes) : go (list (bytes * rrdp_info) * bytes) :=
  let st1 := match file with Some s => fst (load_text s) | None => st end in
  let! m := fetch st1 in Ret (m, save_text m).

(** vendor/github.com/cloudflare/gortr/prefixfile/prefixfile.go:80-99 ROAJson,
    MetaData and ROAList with their tags; Serial is never set. *)
Definition roa_json (r : roajson) : json :=
  JObj ([(str "prefix", JStr (j_prefix r)); (str "maxLength", JNum (dec (j_len r))); (str "asn", JStr (j_asn r))]
        ++ match j_ta r with [] => [] | t => [(str "ta", JStr t)] end).
Definition omit_str (k : bytes) (s : bytes) : list (bytes * json) :=
  match s with [] => [] | _ => [(k, JStr s)] end.
Definition meta_json (m : meta) : json :=
  JObj ([(str "counts", JNum (dec (m_counts m))); (str "generated", JNum (dec (m_generated m)))]
        ++ (if m_valid m =? 0 then [] else [(str "valid", JNum (dec (m_valid m)))])
        ++ omit_str (str "signature") (m_sign m) ++ omit_str (str "signatureDate") (m_signdate m)).
Definition list_json (l : roalist) : json :=
  JObj [(str "metadata", meta_json (l_meta l)); (str "roas", JArr (map roa_json (l_data l)))].
(** octorpki.go:1629-1645 output; 1234-1235 in ServeROAs: Encode ends with a
    newline. *)
Definition output_text (l : roalist) : bytes := enc_json (list_json l).
Definition served_text (l : roalist) : bytes := output_text l ++ [10].
