(** Concrete certificates and runs for the examples and refutations. *)
From Coq Require Import Lia String.
From Verif.Model Require Import Base NetIP CertRes Roa Str Tal Validator.
From Verif.Spec Require Import Addr Resources Trust Safe.
From Verif.Proofs Require Import Witness StrProofs HeapProofs ValidatorInv.

Definition mkc (ski aki : bytes) (serial : Z) (ips : list ipinfo) (asns : list asinfo) : cert :=
  mkCert ski aki serial 0 100 ips asns 1 (RSAPtr 77 3) [] [] [].

(** A trust anchor, a CA below it, a CA below that, and a leaf. *)
Definition w_root := mkc (str "R") (str "R") 1 [pfx (ip4 10 0 0 0) 8] [ASRange 0 1000].
Definition w_ca := mkc (str "A") (str "R") 7 [pfx (ip4 10 1 0 0) 16] [ASRange 10 20].
Definition w_leaf := mkc (str "L") (str "A") 9 [pfx (ip4 10 1 2 0) 24] [ASNum 15].
Definition w_roa := mkRoa (mkc (str "O") (str "A") 11 [pfx (ip4 10 1 3 0) 24] []) 15
  [mkEntry (mkNet (ip4 10 1 3 0) (cidr_mask 24 32)) 24] true.
(** Another CA of the trust anchor. *)
Definition w_other := mkc (str "B") (str "R") 8 [pfx (ip4 10 2 0 0) 16] [ASRange 30 40].
Definition w_other_leaf := mkc (str "M") (str "B") 9 [pfx (ip4 10 2 2 0) 24] [ASNum 35].

Definition sig_all : cert -> cert -> bool := fun _ _ => true.
Definition crl_all : cert -> crl -> bool := fun _ _ => true.
Definition no_dec (A : Type) : bytes -> option A := fun _ => None.

Definition w_ops : list op :=
  [DoCert w_root true; DoCert w_ca false; DoCert w_leaf false; DoRoa None w_roa;
   DoCert w_other false; DoCert w_other_leaf false].
Definition w_run (ops : list op) : vres validator :=
  run sig_all crl_all (no_dec _) (no_dec _) (no_dec _) (no_dec _) (no_dec _) (fun x => x) ops (new_validator 50).
(** Which of the given keys are valid certificates, valid ROAs. *)
Definition show (ks : list bytes) (x : vres validator) : option (list (bool * bool)) :=
  match x with
  | VRet v => Some (map (fun k => (kin (v_valid v) k, kin (v_validroa v) k)) ks)
  | _ => None
  end.
Definition w_keys : list bytes := [str "R"; str "A"; str "L"; str "O"; str "B"; str "M"].
(** A CRL of [aki] with the given serial numbers (the extension value carries
    four bytes before the key identifier). *)
Definition w_crl (aki : bytes) (l : list Z) : crl := mkCrl [(true, [0; 0; 0; 0] ++ aki)] l [].

Lemma not_anchor_run : forall (dec : bytes -> option cert) ops c,
  (forall o, In o ops -> match o with DoCert c' true => c' <> c | DoResource _ _ => False | _ => True end) ->
  ~ given_as_anchor dec ops c.
Proof.
  intros dec ops c H [G|(f & d & G & _)]; [exact (H _ G eq_refl)|exact (H _ G)].
Qed.

Ltac solve_not_anchor :=
  apply not_anchor_run; cbn [In]; intros o H;
  repeat (destruct H as [<-|H]; [try exact I; discriminate|]); contradiction.
