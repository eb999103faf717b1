(** RRDP: sync/lib/rrdp.go:182-377 FetchRRDP. *)
From Verif.Model Require Import Base Str Base64 Paths Cache.

(** rrdp_struct.go: the notification file after ParseRoot (rrdp.go:68-94). *)
Record notif := mkNotif {
  n_session : bytes;
  n_serial : Z;
  n_snapshot : bytes;
  n_deltas : list (Z * bytes)      (* serial and address, in document order *)
}.

(** A snapshot or a delta after ParseNode (rrdp.go:96-151): the elements to
    publish and to withdraw, each an address and base64 text. *)
Definition elem := (bytes * bytes)%type.
Definition doc := (list elem * list elem)%type.

(** The arguments of the callback (rrdp.go:153). *)
Record event := mkEvent {
  e_url : bytes;
  e_path : bytes;
  e_data : bytes;
  e_withdraw : bool;
  e_snapshot : bool;
  e_serial : Z
}.

Inductive outcome :=
| Done (session : bytes) (serial : Z)
| Failed
| Exited
| OutOfFuel.

(** rrdp.go:223-227: the map from serial to address; the last one counts. *)
Fixpoint delta_at (l : list (Z * bytes)) (k : Z) : option bytes :=
  match l with
  | [] => None
  | (k', u) :: r =>
      match delta_at r k with
      | Some u' => Some u'
      | None => if k' =? k then Some u else None
      end
  end.

(** rrdp.go:231-238: is the delta of some serial from [serial] to [cur]
    missing.  [None] is out of fuel. *)
Fixpoint missing (fuel : nat) (deltas : list (Z * bytes)) (serial cur : Z) : option bool :=
  match fuel with
  | O => None
  | S k =>
      if serial <=? cur then
        match delta_at deltas serial with
        | None => Some true
        | Some _ => missing k deltas (wrap64 (serial + 1)) cur
        end
      else Some false
  end.

Section Fetch.
  Variable St : Type.
  (** The callback and its effect. *)
  Variable cb : event -> St -> St * verdict.
  (** GetXML and ParseNode together for the snapshot, and for the delta of a
      serial; [None] is an error. *)
  Variable snap : bytes -> option doc.
  Variable delta : Z -> bytes -> option doc.

  (** rrdp.go:269-278, 279-288, 339-348, 349-358.  With [ignore] the error of
      the callback is dropped, as in line 354. *)
  Fixpoint deliver (mk : bytes -> bytes -> event) (ignore : bool) (l : list elem) (s : St)
    : St * verdict :=
    match l with
    | [] => (s, VOk)
    | (u, t) :: r =>
        match decode_rrdp_base64 t with
        | None => (s, VErr)
        | Some d =>
            match cb (mk u d) s with
            | (s', VOk) => deliver mk ignore r s'
            | (s', VErr) => if ignore then deliver mk ignore r s' else (s', VErr)
            | (s', VFatal) => (s', VFatal)
            end
        end
    end.

  Definition deliver_doc (mk : bool -> bytes -> bytes -> event) (ignore : bool) (d : doc) (s : St)
    : St * verdict :=
    match deliver (mk false) false (fst d) s with
    | (s', VOk) => deliver (mk true) ignore (snd d) s'
    | x => x
    end.

  (** rrdp.go:304-362.  [tmp] is tmpCurSerial. *)
  Fixpoint deltas_loop (fuel : nat) (n : notif) (last serial tmp : Z) (s : St) : St * outcome :=
    match fuel with
    | O => (s, OutOfFuel)
    | S k =>
        if (serial <=? n_serial n) && (0 <? wrap64 (n_serial n - last)) then
          match delta_at (n_deltas n) serial with
          | None => (s, Failed)
          | Some u =>
              match delta serial u with
              | None => (s, Failed)
              | Some d =>
                  match deliver_doc (fun w p x => mkEvent (n_snapshot n) p x w false serial) true d s with
                  | (s', VOk) => deltas_loop k n last (wrap64 (serial + 1)) serial s'
                  | (s', VErr) => (s', Failed)
                  | (s', VFatal) => (s', Exited)
                  end
              end
          end
        else (s, Done (n_session n) tmp)
    end.

  (** rrdp.go:245-289 *)
  Definition snapshot_run (n : notif) (s : St) : St * outcome :=
    match snap (n_snapshot n) with
    | None => (s, Failed)
    | Some d =>
        match deliver_doc (fun w p x => mkEvent (n_snapshot n) p x w true (n_serial n)) false d s with
        | (s', VOk) => (s', Done (n_session n) (n_serial n))
        | (s', VErr) => (s', Failed)
        | (s', VFatal) => (s', Exited)
        end
    end.

  (** rrdp.go:182-377 with stored session [ls] and serial [last]; [root] is
      GetXML and ParseRoot of the notification file.  The outcome carries the
      session and serial stored at the end (lines 374-375). *)
  Definition fetch_rrdp (root : option notif) (ls : bytes) (last : Z) (s : St) : St * outcome :=
    match root with
    | None => (s, Failed)
    | Some n =>
        let fuel := S (S (length (n_deltas n))) in
        match missing fuel (n_deltas n) last (n_serial n) with
        | None => (s, OutOfFuel)
        | Some m =>
            if (last =? 0) || negb (beq ls (n_session n)) || m then snapshot_run n s
            else deltas_loop fuel n last (wrap64 (last + 1)) last s
        end
    end.
End Fetch.

(** rrdp.go: the session and serial of the RRDPSystem after the call. *)
Definition stored_after (st : bytes * Z) (o : outcome) : bytes * Z :=
  match o with Done a b => (a, b) | _ => st end.

(** The callback of octorpki for the server bound to [domain]. *)
Definition octo_cb (cwd : loc) (base domain : bytes) (e : event) (s : fs) : fs * verdict :=
  exec (callback_ops cwd base domain (e_path e) (e_data e)) s.

(** The same callback in a process that is killed after some operations. *)
Definition crash_cb (g : option bytes) (cwd : loc) (base domain : bytes) (e : event) (x : fs * nat)
  : fs * nat * verdict :=
  exec_with (fs * nat) (step_crash g) (callback_ops cwd base domain (e_path e) (e_data e)) x.
