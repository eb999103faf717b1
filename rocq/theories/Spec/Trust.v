(** Vocabulary for the validator properties: stored objects, chains of trust,
    issuing relations.  Only data of the validator state is used, not its
    operations. *)
From Coq Require Import List ZArith.
From Verif.Model Require Import Base Str Tal Validator.
Import ListNotations.
Open Scope Z_scope.

(** The resource stored at an address is the certificate [c]. *)
Definition cert_at (v : validator) (a : addr) (c : cert) : Prop :=
  exists r, nth_error (v_heap v) a = Some r /\ r_obj r = OCert c.
Definition roa_at (v : validator) (a : addr) (x : roa) : Prop :=
  exists r, nth_error (v_heap v) a = Some r /\ r_obj r = ORoa x.

(** Certificate [c] is reported valid. *)
Definition valid_cert (v : validator) (c : cert) : Prop :=
  exists a, v_valid v (c_ski c) = Some a /\ cert_at v a c.
(** ROA [x] is reported valid. *)
Definition valid_roa (v : validator) (x : roa) : Prop :=
  exists a, v_validroa v (c_ski (roa_cert x)) = Some a /\ roa_at v a x.
(** Certificate [c] is known. *)
Definition known_cert (v : validator) (c : cert) : Prop :=
  exists a, v_objects v (c_ski c) = Some a /\ cert_at v a c.

Definition in_window (c : cert) (now : Z) : Prop := c_not_before c <= now <= c_not_after c.

Section Chain.
Variable sig_ok : cert -> cert -> bool.
Variable dec_cert : bytes -> option cert.

(** The certificate was handed in as a trust anchor. *)
Definition given_as_anchor (ops : list op) (c : cert) : Prop :=
  In (DoCert c true) ops \/
  exists f d, In (DoResource f d) ops /\ f_type f = TCer /\ dec_cert d = Some c /\
              fd_trust (f_desc f) = true.

(** [chain ops v c]: [c] is valid and its issuers up to an anchor are valid,
    inside their validity windows and linked by verified signatures. *)
Inductive chain (ops : list op) (v : validator) : cert -> Prop :=
| chain_anchor c :
    valid_cert v c -> in_window c (v_time v) -> given_as_anchor ops c -> chain ops v c
| chain_link c p :
    valid_cert v c -> in_window c (v_time v) -> c_aki c = c_ski p -> sig_ok p c = true ->
    chain ops v p -> chain ops v c.
End Chain.

(** [child_key v k k']: the object known under [k'] is listed as a child of
    the object known under [k]. *)
Definition child_key (v : validator) (k k' : bytes) : Prop :=
  exists a r b rb, v_objects v k = Some a /\ nth_error (v_heap v) a = Some r /\
    In b (r_childs r) /\ nth_error (v_heap v) b = Some rb /\ identifier (r_obj rb) = Some k'.

(** Everything issued below [k], itself included. *)
Inductive below (v : validator) (k : bytes) : bytes -> Prop :=
| below_self : below v k k
| below_child k1 k2 : below v k k1 -> child_key v k1 k2 -> below v k k2.

(** [issuers v k' k]: following authority key identifiers from the certificate
    known under [k'] leads to [k]. *)
Inductive issuers (v : validator) : bytes -> bytes -> Prop :=
| iss_self k : issuers v k k
| iss_up c k : known_cert v c -> issuers v (c_aki c) k -> issuers v (c_ski c) k.

(** [same_content v v']: the stored objects, their issuers and children and
    every validity index are the same in [v'] as in [v]. *)
Definition same_content (v v' : validator) : Prop :=
  v_objects v' = v_objects v /\ v_valid v' = v_valid v /\ v_validroa v' = v_validroa v /\
  v_validcrl v' = v_validcrl v /\ v_validmft v' = v_validmft v /\ v_serial v' = v_serial v /\
  v_revoked v' = v_revoked v /\ v_crl v' = v_crl v /\
  forall a r, nth_error (v_heap v) a = Some r ->
    exists r', nth_error (v_heap v') a = Some r' /\
      r_obj r' = r_obj r /\ r_parent r' = r_parent r /\ r_childs r' = r_childs r.

(** The key identifier of the certificate an operation brings, if it brings
    one. *)
Definition brought (dec_cert : bytes -> option cert) (dec_roa : bytes -> option roa)
  (dec_mft : bytes -> option mft) (o : op) : option bytes :=
  match o with
  | DoCert c _ => Some (c_ski c)
  | DoRoa _ r => Some (c_ski (roa_cert r))
  | DoMft _ m => Some (c_ski (mft_cert m))
  | DoResource f d =>
      match f_type f with
      | TCer => option_map c_ski (dec_cert d)
      | TRoa => option_map (fun r => c_ski (roa_cert r)) (dec_roa d)
      | TMft => option_map (fun m => c_ski (mft_cert m)) (dec_mft d)
      | _ => None
      end
  | _ => None
  end.
