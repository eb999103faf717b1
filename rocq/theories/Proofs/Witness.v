(** Tactics and concrete values used by the non-vacuity examples. *)
From Coq Require Import Lia.
From Verif.Model Require Import Base NetIP CertRes Roa.
From Verif.Spec Require Import Addr Resources Bits Canon.

Ltac not_v4mapped :=
  let H1 := fresh in let H2 := fresh in
  intros [H1 H2]; vm_compute in H1, H2; first [discriminate H2 | apply H1; reflexivity].
Ltac plain :=
  split; [reflexivity|split; [first [left; reflexivity|right; reflexivity]|
    first [discriminate|intros _; not_v4mapped]]].

Definition ip4 (a b c d : Z) : bytes := [a; b; c; d].
(** 2001:db8:: followed by zeros, last byte [z] *)
Definition ip6 (z : Z) : bytes := [32; 1; 13; 184; 0;0;0;0; 0;0;0;0; 0;0;0; z].
Definition pfx (ip : bytes) (p : Z) : ipinfo := INet (Some (mkNet ip (cidr_mask p (addr_bits ip)))).
(** ::ffff:a.b.c.d *)
Definition mapped (a b c d : Z) : bytes := repeat 0 10 ++ [255; 255; a; b; c; d].

Lemma ip4_plain a b c d : bytes_ok [a; b; c; d] = true -> plain_addr (ip4 a b c d).
Proof. intros H. split; [exact H|]. split; [left; reflexivity|discriminate]. Qed.
Lemma ip6_plain0 : plain_addr (ip6 0). Proof. plain. Qed.
Lemma ip6_plain9 : plain_addr (ip6 9). Proof. plain. Qed.
