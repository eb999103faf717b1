(** Origin validation: ov/ov.go, with
    vendor/github.com/kentik/patricia/net.go:81-99. *)
From Verif.Model Require Import Base NetIP Patricia Output.

(** binary.BigEndian *)
Definition be (l : bytes) : Z := fold_left (fun a b => a * 256 + b) l 0.

(** net.go:81-99 ParseFromIPAddr *)
Inductive parsed := P4 (a : paddr Z) | P6 (a : paddr (Z * Z)) | PErr.
Definition parse_from_ipaddr (n : option ipnet) : parsed :=
  match n with
  | None => PErr
  | Some n =>
      let cidr := fst (mask_size (nmask n)) in
      match to4 (nip n) with
      | Some a => P4 (mkPA (be a) cidr)
      | None =>
          match to16 (nip n) with
          | Some a => P6 (mkPA (be (firstn 8 a), be (skipn 8 a)) cidr)
          | None => PErr
          end
      end
  end.

(** ov.go:27-36 AbstractROA and AbstractRoute: the values of their methods. *)
Record oroa := mkORoa { o_prefix : option ipnet; o_maxlen : Z; o_asn : Z }.
Record oroute := mkRoute { rt_prefix : option ipnet; rt_asn : Z }.

(** ov.go:38-42 OriginValidator *)
Record validator_ov := mkOV { ov_vrp : list oroa; ov_t4 : tree4; ov_t6 : tree6 }.

(** ov.go:45-59 NewOV: the loop, [i] is the index of the head of [l]. *)
Fixpoint insert_all (i : Z) (l : list oroa) (t4 : tree4) (t6 : tree6) : tres (tree4 * tree6) :=
  match l with
  | [] => TOk (t4, t6)
  | r :: l' =>
      match parse_from_ipaddr (o_prefix r) with
      | P4 a => do t <- add4 t4 a i; insert_all (i + 1) l' t t6
      | P6 a => do t <- add6 t6 a i; insert_all (i + 1) l' t4 t
      | PErr => insert_all (i + 1) l' t4 t6
      end
  end.
Definition new_ov (l : list oroa) : tres validator_ov :=
  do (t4, t6) <- insert_all 0 l new4 new6; TOk (mkOV l t4 t6).

(** ov.go:13-17 *)
Inductive vstate := NotFound | Invalid | Valid.

(** ov.go:68-81 Filter: state and matching ROAs after one payload; an index out
    of range panics.  The route's prefix is not nil here (ov.go:85-89). *)
Definition ov_filter (vrp : list oroa) (rt : oroute) (mask : Z) (cur : vstate * list oroa) (payload : Z)
  : tres (vstate * list oroa) :=
  if payload <? 0 then TPanic
  else match nth_error vrp (Z.to_nat payload) with
       | None => TPanic
       | Some r =>
           let st := match fst cur with
                     | Valid => Valid
                     | _ => if (rt_asn rt =? o_asn r) && (mask <=? o_maxlen r) then Valid else Invalid
                     end in
           TOk (st, snd cur ++ [r])
       end.

Fixpoint filter_all (vrp : list oroa) (rt : oroute) (mask : Z) (cur : vstate * list oroa) (l : list Z)
  : tres (vstate * list oroa) :=
  match l with
  | [] => TOk cur
  | x :: l' => do c <- ov_filter vrp rt mask cur x; filter_all vrp rt mask c l'
  end.

(** ov.go:83-106 Validate: matching ROAs, state, whether there is an error. *)
Definition ov_validate (ov : validator_ov) (rt : oroute) : tres (list oroa * vstate * bool) :=
  let mask := match rt_prefix rt with Some n => fst (mask_size (nmask n)) | None => 0 end in
  match parse_from_ipaddr (rt_prefix rt) with
  | PErr => TOk ([], NotFound, true)
  | P4 a => do l <- find4 (ov_t4 ov) a;
            do (st, m) <- filter_all (ov_vrp ov) rt mask (NotFound, []) l; TOk (m, st, false)
  | P6 a => do l <- find6 (ov_t6 ov) a;
            do (st, m) <- filter_all (ov_vrp ov) rt mask (NotFound, []) l; TOk (m, st, false)
  end.

(** vendor/github.com/cloudflare/gortr/prefixfile/prefixfile.go:120-123, 137-144:
    an entry of the list as AbstractROA; an unreadable AS number is 0. *)
Definition as_oroa (r : roajson) : oroa :=
  mkORoa (get_prefix r) (j_len r) (match get_asn2 r with Some a => a | None => 0 end).
