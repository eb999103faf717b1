(** The private operation of RSA: validator/lib/cms.go, and the library's
    SignPKCS1v15 that EncryptSignatureRSA calls. *)
From Verif.Model Require Import Base Cms Der X509.

(** crypto/rsa PrivateKey (not part of /repo): E is in the public key;
    Precomputed is absent when Precomputed.Dp is nil.  The numbers are big.Int;
    negative exponents and negative primes are outside of the model. *)
Record crt_value := mkCrt { cv_exp : Z; cv_coeff : Z; cv_r : Z }.
Record precomputed := mkPre { pc_dp : Z; pc_dq : Z; pc_qinv : Z; pc_crt : list crt_value }.
Record privkey := mkPriv { pk_n : Z; pk_e : positive; pk_d : Z; pk_primes : list Z; pk_pre : option precomputed }.

(** big.Int BitLen *)
Definition bit_len (n : Z) : Z := if n =? 0 then 0 else Z.log2 n + 1.
(** big.Int Exp *)
Definition exp_mod (x y n : Z) : Z := match y with Zpos e => pow_mod x e n | _ => 1 mod n end.

(** cms.go:87-92: the block of [k] octets; [k] exceeds the data by at least 11. *)
Definition padded (k : nat) (data : bytes) : bytes :=
  [0; 1] ++ repeat 255 (k - length data - 3) ++ 0 :: data.

(** cms.go:114-125.  Primes[2+i] panics when there are fewer primes than
    values; Mod panics on a modulus of zero. *)
Fixpoint crt_loop (c : Z) (vs : list crt_value) (primes : list Z) (m : Z) : go Z :=
  match vs with
  | [] => Ret m
  | v :: vs' =>
      match primes with
      | [] => Panic
      | prime :: primes' =>
          if prime =? 0 then Panic
          else
            let m2 := (exp_mod c (cv_exp v) prime - m) * cv_coeff v mod prime in
            let m2 := if m2 <? 0 then m2 + prime else m2 in
            crt_loop c vs' primes' (m + m2 * cv_r v)
      end
  end.

(** cms.go:98-126; the library's decrypt does the same. *)
Definition private_op (k : privkey) (c : Z) : go Z :=
  match pk_pre k with
  | None => Ret (exp_mod c (pk_d k) (pk_n k))
  | Some pc =>
      match pk_primes k with
      | p :: q :: primes =>
          if p =? 0 then Panic
          else
            let m2 := exp_mod c (pc_dq pc) q in
            let m := exp_mod c (pc_dp pc) p - m2 in
            let m := if m <? 0 then m + p else m in
            let m := m * pc_qinv pc mod p in
            crt_loop c (pc_crt pc) primes (m * q + m2)
      | _ => Panic
      end
  end.

Definition bind_go {A B} (x : go A) (f : A -> go B) : go B := match x with Ret a => f a | Panic => Panic end.

(** cms.go:78-136 PrivateEncrypt.  [ir] is always nil (128-132). *)
Definition private_encrypt (key : privkey) (data : bytes) : go (option bytes) :=
  let k := (bit_len (pk_n key) + 7) / 8 in
  if k - 11 <? Z.of_nat (length data) then Ret None
  else
    let c := int_of_bytes (padded (Z.to_nat k) data) in
    if pk_n key <? c then Ret None
    else bind_go (private_op key c) (fun m => Ret (Some (bytes_of_int (Z.abs m)))).

(** crypto/rsa SignPKCS1v15 with Hash(0), called at cms.go:174 (the library is
    not part of /repo): as PrivateEncrypt, but blinded with a random number [r]
    whose inverse is [ir], the result checked with the public key, and written
    with the octets of the modulus. *)
Definition sign_pkcs1v15 (r ir : Z) (key : privkey) (data : bytes) : go (option bytes) :=
  let k := (bit_len (pk_n key) + 7) / 8 in
  let n := pk_n key in
  if k <? Z.of_nat (length data) + 11 then Ret None
  else
    let c := int_of_bytes (padded (Z.to_nat k) data) in
    if n <? c then Ret None
    else
      bind_go (private_op key (c * pow_mod r (pk_e key) n mod n)) (fun b =>
        let m := b * ir mod n in
        if pow_mod m (pk_e key) n =? c then Ret (Some (be_bytes (Z.to_nat k) m)) else Ret None).
