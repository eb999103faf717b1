(** Specification of base64 (RFC 4648, section 4) by bits. *)
From Coq Require Import List ZArith String.
From Verif.Model Require Import Base Str.
Import ListNotations.
Open Scope Z_scope.

Definition alphabet : bytes :=
  str "ABCDEFGHIJKLMNOPQRSTUVWXYZabcdefghijklmnopqrstuvwxyz0123456789+/".

(** The [n] low bits of a number, most significant first. *)
Fixpoint bits (n : nat) (v : Z) : list bool :=
  match n with
  | O => []
  | S k => Z.testbit v (Z.of_nat k) :: bits k v
  end.

(** [chars_bits cs bs]: every character is in the alphabet and [bs] is the
    concatenation of their six-bit positions. *)
Inductive chars_bits : bytes -> list bool -> Prop :=
| cb_nil : chars_bits [] []
| cb_cons c cs i bs : nth_error alphabet i = Some c -> chars_bits cs bs ->
    chars_bits (c :: cs) (bits 6 (Z.of_nat i) ++ bs).

Definition octet_bits (d : bytes) : list bool := concat (map (bits 8) d).

(** [b64_text t d]: the text [t] is characters of the alphabet, then 0, 1 or 2
    padding characters, in all a multiple of four; the bits of the characters
    are those of the octets [d] followed by two unused bits for each padding
    character. *)
Definition b64_text (t d : bytes) : Prop :=
  exists cs k unused bs,
    t = cs ++ repeat 61 k /\ (k <= 2)%nat /\ (length t mod 4 = 0)%nat /\
    chars_bits cs bs /\ bytes_ok d = true /\
    bs = octet_bits d ++ unused /\ length unused = (2 * k)%nat.

(** White space the decoder skips: blanks, line feeds, carriage returns. *)
Definition strip (t : bytes) : bytes :=
  filter (fun c => negb ((c =? 32) || (c =? 10) || (c =? 13))) t.
