(** RRDP documents: sync/lib/rrdp.go:68-151, rrdp_struct.go, on the tokens that
    the decoder of encoding/xml delivers.

    encoding/xml (not part of /repo) is modelled above its tokenizer: Token
    yields the tokens up to the end of the input or the first syntax error,
    end tags match; DecodeElement fills the structs by local names. *)
From Coq Require Import String.
From Verif.Model Require Import Base Str NetText Paths Cache Rrdp.

(** xml.StartElement with local names, xml.EndElement, xml.CharData; comments,
    processing instructions and directives are [XOther].  The end of a list is
    the end of the input or an error: Token returns nil. *)
Inductive xtok :=
| XStart (name : bytes) (attrs : list (bytes * bytes))
| XEnd
| XText (t : bytes)
| XOther.

Inductive xres (A : Type) := XOk (a : A) | XErr | XFuel.
Arguments XOk {A} a. Arguments XErr {A}. Arguments XFuel {A}.

(** A string attribute: the last one of that name. *)
Fixpoint attr (name : bytes) (l : list (bytes * bytes)) (cur : bytes) : bytes :=
  match l with
  | [] => cur
  | (n, x) :: r => attr name r (if beq n name then x else cur)
  end.

(** strings.TrimSpace (of ASCII text) *)
Definition is_space (c : Z) : bool := (c =? 32) || ((9 <=? c) && (c <=? 13)).
Fixpoint drop_spaces (s : bytes) : bytes :=
  match s with
  | c :: r => if is_space c then drop_spaces r else s
  | [] => []
  end.
Definition trim_space (s : bytes) : bytes := rev (drop_spaces (rev (drop_spaces s))).

(** strconv.ParseInt(_, 10, 64) *)
Definition parse_int64 (s : bytes) : option Z :=
  let (neg, d) := match s with
                  | c :: r => if c =? 45 then (true, r) else if c =? 43 then (false, r) else (false, s)
                  | [] => (false, [])
                  end in
  match d with
  | [] => None
  | _ =>
      if forallb is_digit d then
        let n := (if neg then -1 else 1) * horner 10 dval d in
        if (- 2 ^ 63 <=? n) && (n <? 2 ^ 63) then Some n else None
      else None
  end.
(** xml.copyValue for an int64 *)
Definition int_attr (x : bytes) : option Z :=
  match x with [] => Some 0 | _ => parse_int64 (trim_space x) end.

(** An integer attribute; [None] if one of that name cannot be read. *)
Fixpoint attr_int (name : bytes) (l : list (bytes * bytes)) (cur : Z) : option Z :=
  match l with
  | [] => Some cur
  | (n, x) :: r =>
      if beq n name then match int_attr x with Some k => attr_int name r k | None => None end
      else attr_int name r cur
  end.

(** Decoder.Skip and the body of an element without fields for its contents:
    the rest after the end tag. *)
Fixpoint skip (depth : nat) (l : list xtok) : option (list xtok) :=
  match l with
  | [] => None
  | XStart _ _ :: r => skip (S depth) r
  | XEnd :: r => match depth with O => Some r | S d => skip d r end
  | _ :: r => skip depth r
  end.

(** The body of a Cert (rrdp_struct.go:20-23): its text, without that of
    elements inside. *)
Fixpoint read_text (depth : nat) (l : list xtok) (acc : bytes) : option (bytes * list xtok) :=
  match l with
  | [] => None
  | XStart _ _ :: r => read_text (S depth) r acc
  | XEnd :: r => match depth with O => Some (acc, r) | S d => read_text d r acc end
  | XText t :: r => read_text depth r (match depth with O => acc ++ t | S _ => acc end)
  | XOther :: r => read_text depth r acc
  end.

(** The body of a Delta or Snapshot (rrdp_struct.go:32-44); new elements are
    appended to the slices. *)
Fixpoint read_body (fuel : nat) (p w : list elem) (l : list xtok)
  : xres (list elem * list elem * list xtok) :=
  match fuel with
  | O => XFuel
  | S k =>
      match l with
      | [] => XErr
      | XEnd :: r => XOk (p, w, r)
      | XStart n a :: r =>
          if beq n (str "publish") then
            match read_text 0 r [] with
            | Some (t, r') => read_body k (p ++ [(attr (str "uri") a [], t)]) w r'
            | None => XErr
            end
          else if beq n (str "withdraw") then
            match read_text 0 r [] with
            | Some (t, r') => read_body k p (w ++ [(attr (str "uri") a [], t)]) r'
            | None => XErr
            end
          else match skip 0 r with Some r' => read_body k p w r' | None => XErr end
      | _ :: r => read_body k p w r
      end
  end.

(** rrdp.go:96-151 ParseNode.  [d] and [s] are the variables of these names,
    which keep the elements of earlier delta and snapshot elements. *)
Fixpoint node_loop (fuel : nat) (publish withdraw : list elem) (d s : list elem * list elem) (l : list xtok)
  : xres doc :=
  match fuel with
  | O => XFuel
  | S k =>
      match l with
      | [] => XOk (publish, withdraw)
      | XStart n a :: r =>
          if beq n (str "delta") then
            match attr_int (str "serial") a 0 with
            | None => XErr
            | Some _ =>
                match read_body k (fst d) (snd d) r with
                | XOk (p, w, r') => node_loop k (publish ++ p) (withdraw ++ w) (p, w) s r'
                | XErr => XErr
                | XFuel => XFuel
                end
            end
          else if beq n (str "snapshot") then
            match attr_int (str "serial") a 0 with
            | None => XErr
            | Some _ =>
                match read_body k (fst s) (snd s) r with
                | XOk (p, w, r') => node_loop k (publish ++ p) (withdraw ++ w) d (p, w) r'
                | XErr => XErr
                | XFuel => XFuel
                end
            end
          else node_loop k publish withdraw d s r
      | _ :: r => node_loop k publish withdraw d s r
      end
  end.
Definition parse_node (l : list xtok) : xres doc := node_loop (S (List.length l)) [] [] ([], []) ([], []) l.

(** The body of a Notification (rrdp_struct.go:25-30); snapshot and delta are
    ElNode (14-18). *)
Fixpoint read_root (fuel : nat) (n : notif) (l : list xtok) : xres (notif * list xtok) :=
  match fuel with
  | O => XFuel
  | S k =>
      match l with
      | [] => XErr
      | XEnd :: r => XOk (n, r)
      | XStart name a :: r =>
          if beq name (str "snapshot") then
            match attr_int (str "serial") a 0, skip 0 r with
            | Some _, Some r' =>
                read_root k (mkNotif (n_session n) (n_serial n) (attr (str "uri") a (n_snapshot n)) (n_deltas n)) r'
            | _, _ => XErr
            end
          else if beq name (str "delta") then
            match attr_int (str "serial") a 0, skip 0 r with
            | Some x, Some r' =>
                read_root k (mkNotif (n_session n) (n_serial n) (n_snapshot n)
                                     (n_deltas n ++ [(x, attr (str "uri") a [])])) r'
            | _, _ => XErr
            end
          else match skip 0 r with Some r' => read_root k n r' | None => XErr end
      | _ :: r => read_root k n r
      end
  end.

(** rrdp.go:68-94 ParseRoot *)
Fixpoint root_loop (fuel : nat) (n : notif) (l : list xtok) : xres notif :=
  match fuel with
  | O => XFuel
  | S k =>
      match l with
      | [] => XOk n
      | XStart name a :: r =>
          if beq name (str "notification") then
            match attr_int (str "serial") a (n_serial n) with
            | None => XErr
            | Some x =>
                match read_root k (mkNotif (attr (str "session_id") a (n_session n)) x (n_snapshot n) (n_deltas n)) r with
                | XOk (n', r') => root_loop k n' r'
                | XErr => XErr
                | XFuel => XFuel
                end
            end
          else root_loop k n r
      | _ :: r => root_loop k n r
      end
  end.
Definition parse_root (l : list xtok) : xres notif := root_loop (S (List.length l)) (mkNotif [] 0 [] []) l.

(** rrdp.go:182-377 FetchRRDP of the server at [path]; [get] is GetXML (37-66)
    and the tokenizer, [None] a failed download. *)
Definition of_xres {A} (x : xres A) : option A := match x with XOk a => Some a | _ => None end.
Definition get_as {A} (parse : list xtok -> xres A) (get : bytes -> option (list xtok)) (u : bytes) : option A :=
  match get u with Some l => of_xres (parse l) | None => None end.
Definition fetch_xml {St} (cb : event -> St -> St * verdict) (get : bytes -> option (list xtok))
  (path ls : bytes) (last : Z) (s : St) : St * outcome :=
  fetch_rrdp St cb (get_as parse_node get) (fun _ => get_as parse_node get)
    (get_as parse_root get path) ls last s.
