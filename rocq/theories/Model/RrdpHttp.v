(** Downloads with their errors: sync/lib/rrdp.go:17, 38-66 GetXML, 182-377
    FetchRRDP with the errors it returns and the addresses it asks,
    sync/lib/errors.go, and what octorpki.go:427-448, 487-513 do with the rsync
    job of the repository.  octorpki.go:665-712 getHTTP is the download of the
    certificate of a TAL. *)
From Coq Require Import String.
From Verif.Model Require Import Base Str Base64 Paths Cache Rrdp RrdpXml XmlLex.

(** What the HTTP client gives for an address: http.NewRequest or Client.Do
    fail with a text, or there is a response with a status code and a body
    that ends with io.EOF or, after these octets, with an error.  Timeouts and
    refused connections are errors with some text. *)
Inductive answer :=
| BadAddress (text : bytes)
| NoResponse (text : bytes)
| Response (code : Z) (body : bytes) (fails : option bytes).

(** An error: sync/lib/errors.go:25-36, 93-101 NewRRDPErrorFetch around an
    error with a text, or any other error. *)
Inductive ferr := FFetch (inner : bytes) | FPlain (text : bytes).

(** rrdp.go:17; the comment there says 5Gb *)
Definition response_limit : Z := 1000000000.

(** net/http: the error of MaxBytesReader; octorpki.go:503 *)
Definition too_large : bytes := str "http: request body too large".

(** rrdp.go:38-66 GetXML.  The reader of line 58 gives an error of its own as
    soon as there is one octet more than the limit. *)
Definition get_xml (limit : Z) (a : answer) : bytes + ferr :=
  match a with
  | BadAddress t => inr (FFetch t)
  | NoResponse t => inr (FFetch t)
  | Response code body fails =>
      if code =? 200 then
        if limit <? Z.of_nat (List.length body) then inr (FPlain too_large)
        else match fails with Some t => inr (FPlain t) | None => inl body end
      else inr (FFetch (str "status is " ++ dec code))
  end.

(** errors.go:61-73 Error, after 88-91 SetURL by octorpki.go:490-492; the other
    errors have no SetURL. *)
Definition error_text (path rsync : bytes) (e : ferr) : bytes :=
  match e with
  | FFetch inner =>
      str "error fetching" ++ str " " ++
      (match path with
       | [] => str "for repo"
       | _ => str "for repo rrdp:" ++ path ++ str " (rsync:" ++ rsync ++ str ")"
       end) ++ str ": " ++ inner
  | FPlain t => t
  end.

(** How FetchRRDP ends; [HExited] is a callback that ends the process. *)
Inductive hres :=
| HDone (session : bytes) (serial : Z)
| HError (e : ferr)
| HExited
| HFuel.

Inductive dres := DOk | DErr (text : bytes) | DExited.
Inductive got (A : Type) := Got (a : A) | Bad (e : ferr) | Fuel.
Arguments Got {A}. Arguments Bad {A}. Arguments Fuel {A}.

Section Http.
  Variable limit : Z.
  (** As in [XmlLex]: what the decoder takes for letters. *)
  Variables first_more second_more : Z -> bool.
  Variable refuse_colons : bool.
  Variable St : Type.
  (** The callback, its effect and the text of its error. *)
  Variable cb : event -> St -> St * verdict.
  Variable cb_text : event -> St -> bytes.
  (** The position that base64.CorruptInputError names. *)
  Variable bad_at : bytes -> Z.
  Variable web : bytes -> answer.

  (** rrdp.go:194-210, 245-260, 313-329; the texts of 88, 129, 145 *)
  Definition get_doc {A} (parse : bytes -> xres A) (u : bytes) : got A :=
    match get_xml limit (web u) with
    | inr e => Bad e
    | inl data =>
        match parse data with
        | XOk a => Got a
        | XErr => Bad (FPlain (str "XML does not conform to schema"))
        | XFuel => Fuel
        end
    end.
  Definition node (u : bytes) : got doc := get_doc (parse_node_octets first_more second_more refuse_colons) u.

  (** rrdp.go:269-278, 279-288, 339-348, 349-358; the errors of 270-273 and of
      the callback, which line 354 drops *)
  Fixpoint hdeliver (mk : bytes -> bytes -> event) (ignore : bool) (l : list elem) (s : St) : St * dres :=
    match l with
    | [] => (s, DOk)
    | (u, t) :: r =>
        match decode_rrdp_base64 t with
        | None => (s, DErr (str "illegal base64 data at input byte " ++ dec (bad_at t)))
        | Some d =>
            match cb (mk u d) s with
            | (s', VOk) => hdeliver mk ignore r s'
            | (s', VErr) => if ignore then hdeliver mk ignore r s' else (s', DErr (cb_text (mk u d) s))
            | (s', VFatal) => (s', DExited)
            end
        end
    end.
  Definition hdeliver_doc (mk : bool -> bytes -> bytes -> event) (ignore : bool) (d : doc) (s : St) : St * dres :=
    match hdeliver (mk false) false (fst d) s with
    | (s', DOk) => hdeliver (mk true) ignore (snd d) s'
    | x => x
    end.

  (** rrdp.go:304-362, with the error of 307.  The list is a record of the
      addresses given to GetXML (s.fetches, line 312). *)
  Fixpoint hdeltas (fuel : nat) (n : notif) (last serial tmp : Z) (s : St) : St * hres * list bytes :=
    match fuel with
    | O => (s, HFuel, [])
    | S k =>
        if (serial <=? n_serial n) && (0 <? wrap64 (n_serial n - last)) then
          match delta_at (n_deltas n) serial with
          | None => (s, HError (FPlain (str "Could not find delta with serial " ++ dec serial)), [])
          | Some u =>
              match node u with
              | Bad e => (s, HError e, [u])
              | Fuel => (s, HFuel, [u])
              | Got d =>
                  match hdeliver_doc (fun w p x => mkEvent (n_snapshot n) p x w false serial) true d s with
                  | (s', DOk) =>
                      match hdeltas k n last (wrap64 (serial + 1)) serial s' with
                      | (s'', r, q) => (s'', r, u :: q)
                      end
                  | (s', DErr t) => (s', HError (FPlain t), [u])
                  | (s', DExited) => (s', HExited, [u])
                  end
              end
          end
        else (s, HDone (n_session n) tmp, [])
    end.

  (** rrdp.go:245-289 *)
  Definition hsnapshot (n : notif) (s : St) : St * hres * list bytes :=
    match node (n_snapshot n) with
    | Bad e => (s, HError e, [n_snapshot n])
    | Fuel => (s, HFuel, [n_snapshot n])
    | Got d =>
        match hdeliver_doc (fun w p x => mkEvent (n_snapshot n) p x w true (n_serial n)) false d s with
        | (s', DOk) => (s', HDone (n_session n) (n_serial n), [n_snapshot n])
        | (s', DErr t) => (s', HError (FPlain t), [n_snapshot n])
        | (s', DExited) => (s', HExited, [n_snapshot n])
        end
    end.

  (** rrdp.go:182-377 FetchRRDP: the state, the result, and the addresses asked
      in this order *)
  Definition fetch_http (path ls : bytes) (last : Z) (s : St) : St * hres * list bytes :=
    match get_doc (parse_root_octets first_more second_more refuse_colons) path with
    | Bad e => (s, HError e, [path])
    | Fuel => (s, HFuel, [path])
    | Got n =>
        let fuel := S (S (List.length (n_deltas n))) in
        match missing fuel (n_deltas n) last (n_serial n) with
        | None => (s, HFuel, [path])
        | Some m =>
            match (if (last =? 0) || negb (beq ls (n_session n)) || m then hsnapshot n s
                   else hdeltas fuel n last (wrap64 (last + 1)) last s) with
            | (s', r, q) => (s', r, path :: q)
            end
        end
    end.
End Http.

(** octorpki.go:363: the error of the callback for the quoted path and the
    error of the file system *)
Definition octo_text (quoted cause : bytes) : bytes :=
  str "Unable to write sync file " ++ quoted ++ str " on disk: " ++ cause.

(** octorpki.go:441-448, 503-510: is the rsync job of the repository still
    there afterwards.  [None]: the process has ended. *)
Definition job_kept (failover : bool) (path rsync : bytes) (r : hres) : option bool :=
  match r with
  | HDone _ _ => Some false
  | HError e => Some (failover && negb (beq (error_text path rsync e) too_large))
  | HExited | HFuel => None
  end.

(** octorpki.go:665-712 getHTTP: the certificate of a TAL, or the text of the
    error; [status] is the status line of the response. *)
Definition get_http (uri status : bytes) (a : answer) : bytes + bytes :=
  let failed t := inr (str "error while trying to fetch: " ++ uri ++ str ": " ++ t) in
  match a with
  | BadAddress t => failed t
  | NoResponse t => failed t
  | Response code body fails =>
      if code =? 200 then match fails with Some t => failed t | None => inl body end
      else inr (str "http server replied: " ++ status ++ str " while trying to fetch " ++ uri)
  end.
