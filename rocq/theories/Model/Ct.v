(** Certificate transparency: cmd/octorpki/octorpki.go:1144-1180 and
    cmd/octorpki/ct.go. *)
From Verif.Model Require Import Base Str Tal Validator NetText Explore.

(** octorpki.go:1145-1153: skiToAki and skiToPath; [l] is the order in which
    ValidObjects is iterated.  encoding/hex.EncodeToString is [hexs]. *)
Fixpoint ct_maps (l : list (bytes * addr)) (h : list resource) (aki : kmap bytes) (path : kmap (option pkifile))
  : vres (kmap bytes * kmap (option pkifile)) :=
  match l with
  | [] => VRet (aki, path)
  | (_, a) :: l' =>
      do! r := deref h a in
      match r_obj r with
      | OCert c => ct_maps l' h (kset aki (hexs (c_ski c)) (hexs (c_aki c))) (kset path (hexs (c_ski c)) (r_file r))
      | _ => VPanic (* obj.Resource.( *librpki.RPKICertificate) *)
      end
  end.

(** A missing key of a map reads as the zero value. *)
Definition aki_of (m : kmap bytes) (k : bytes) : bytes := match m k with Some x => x | None => [] end.
Definition path_of (m : kmap (option pkifile)) (k : bytes) : option pkifile :=
  match m k with Some f => f | None => None end.

(** octorpki.go:1165-1175: the files appended by the loop. *)
Fixpoint ct_loop (fuel : nat) (aki : kmap bytes) (path : kmap (option pkifile)) (done : kmap bool) (cur : bytes) (ok : bool)
  : vres (list (option pkifile)) :=
  if beq cur [] || ok then VRet []
  else match fuel with
       | O => VFuel
       | S n =>
           do! l := ct_loop n aki path (kset done cur true) (aki_of aki cur) (kin done cur) in
           VRet (path_of path cur :: l)
       end.

(** octorpki.go:1155-1177; [order] is the order in which skiToAki is iterated. *)
Fixpoint ct_chains (aki : kmap bytes) (path : kmap (option pkifile)) (fuel : nat) (order : list (bytes * bytes))
  : vres (list (list (option pkifile))) :=
  match order with
  | [] => VRet []
  | (ski, a) :: order' =>
      do! l := ct_loop fuel aki path (kset kempty ski true) a false in
      do! ls := ct_chains aki path fuel order' in
      VRet ((path_of path ski :: l) :: ls)
  end.

(** octorpki.go:1144-1180 ct.  The bound on iterations is shown to suffice. *)
Definition ct (objs : list (bytes * addr)) (order : list (bytes * bytes)) (v : validator)
  : vres (list (list (option pkifile))) :=
  do! (aki, path) := ct_maps objs (v_heap v) kempty kempty in
  ct_chains aki path (2 + length objs) order.

Section Send.
(** The cache and digest, and [cms.SignedData.Certificates.Bytes] of a decoded
    CMS object. *)
Variable disk : bytes -> option bytes.
Variable synced : bytes -> bool.
Variable sha256 : bytes -> bytes.
Variable cms_certs : bytes -> option bytes.

(** ct.go:79-97: what is appended to the chain for one file.  GetFile returns
    nil without error if the repository is not synchronised (fetch.go:106-109),
    and a SeekFile without data on other errors. *)
Definition ct_entry (f : option pkifile) : vres (list bytes) :=
  match f with
  | None => VPanic
  | Some f =>
      do! s := get_file disk synced sha256 f in
      match s with
      | SNone => VPanic
      | SErr => VRet []
      | SData d _ =>
          match f_type f with
          | TRoa | TMft => VRet (match cms_certs d with Some b => [b] | None => [] end)
          | _ => VRet [d]
          end
      end
  end.

(** ct.go:76-97 the chain of one request *)
Fixpoint ct_request (l : list (option pkifile)) : vres (list bytes) :=
  match l with
  | [] => VRet []
  | f :: l' =>
      do! a := ct_entry f in
      do! b := ct_request l' in
      VRet (a ++ b)
  end.

(** ct.go:76-101: the requests handed to the workers *)
Fixpoint ct_send (l : list (list (option pkifile))) : vres (list (list bytes)) :=
  match l with
  | [] => VRet []
  | c :: l' =>
      do! a := ct_request c in
      do! b := ct_send l' in
      VRet (a :: b)
  end.
End Send.
