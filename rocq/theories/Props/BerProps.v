(** C23-C26, C53: BER to DER conversion. *)
From Coq Require Import Lia.
From Verif.Model Require Import Base Ber.
From Verif.Spec Require Import Addr BerSpec.
From Verif.Proofs Require Import BerProofs BerGrowth.

(** C23. The conversion never runs out of steps ... *)
Theorem C23_terminates : forall inp, bytes_ok inp = true -> ber2der inp <> BFuel.
Proof. exact ber2der_terminates. Qed.
Print Assumptions C23_terminates.

(** ... and a successful result is the DER encoding of one value (sizes are
    Go ints, below 2^63). *)
Theorem C23_single_definite : forall inp out,
  bytes_ok inp = true -> ber2der inp = BOk out -> Z.of_nat (length out) < 2 ^ 63 ->
  exists t, der t out.
Proof. exact ber2der_definite. Qed.
Print Assumptions C23_single_definite.

(** A constructed indefinite value with a primitive in it, and a DER value. *)
Example C23_example :
  ber2der [48; 128; 2; 1; 7; 36; 128; 4; 1; 9; 0; 0; 0; 0] = BOk [48; 8; 2; 1; 7; 36; 3; 4; 1; 9] /\
  ber (Cons [48] [Prim [2] [7]; Cons [36] [Prim [4] [9]]]) [48; 128; 2; 1; 7; 36; 128; 4; 1; 9; 0; 0; 0; 0].
Proof.
  split; [reflexivity|].
  assert (P2 : ber (Prim [2] [7]) ([2] ++ [1] ++ [7])).
  { apply ber_prim; [apply tag_low; [lia|discriminate|reflexivity]|reflexivity|cbn; lia|constructor; cbn; lia]. }
  assert (P4 : ber (Prim [4] [9]) ([4] ++ [1] ++ [9])).
  { apply ber_prim; [apply tag_low; [lia|discriminate|reflexivity]|reflexivity|cbn; lia|constructor; cbn; lia]. }
  assert (C36 : ber (Cons [36] [Prim [4] [9]]) ([36] ++ 128 :: (([4] ++ [1] ++ [9]) ++ []) ++ [0; 0])).
  { apply ber_indef; [apply tag_low; [lia|discriminate|reflexivity]| |discriminate].
    constructor; [exact P4|constructor|discriminate]. }
  apply (ber_indef [48] _ (([2] ++ [1] ++ [7]) ++ ([36] ++ 128 :: (([4] ++ [1] ++ [9]) ++ []) ++ [0; 0]) ++ []));
    [apply tag_low; [lia|discriminate|reflexivity]| |discriminate].
  constructor; [exact P2| |discriminate]. constructor; [exact C36|constructor|discriminate].
Qed.

(** C24. DER is returned unchanged, whatever follows it. *)
Theorem C24_der_fixpoint : forall t b,
  der t b -> Z.of_nat (length b) < 2 ^ 31 -> forall post, ber2der (b ++ post) = BOk b.
Proof. exact ber2der_der. Qed.
Print Assumptions C24_der_fixpoint.

Theorem C24_idempotent : forall inp out,
  bytes_ok inp = true -> ber2der inp = BOk out -> Z.of_nat (length out) < 2 ^ 31 ->
  ber2der out = BOk out.
Proof. exact ber2der_idempotent. Qed.
Print Assumptions C24_idempotent.

Example C24_example : der (Cons [48] [Prim [4] [9]]) [48; 3; 4; 1; 9].
Proof.
  apply (der_cons [48] _ [4; 1; 9] [3]); [apply tag_low; [lia|discriminate|reflexivity]| |].
  - apply (ders_cons _ _ [4; 1; 9] []); [|constructor].
    apply (der_prim [4] [9] [1]); [apply tag_low; [lia|discriminate|reflexivity]|reflexivity|].
    split; [constructor; cbn; lia|]. cbn. lia.
  - split; [constructor; cbn; lia|]. cbn. lia.
Qed.

(** C25 is false: truncated inputs panic. *)
Theorem C25_panics_refuted :
  ber2der [31] = BPanic /\ ber2der [48; 128] = BPanic /\ ber2der [48; 129] = BPanic.
Proof. repeat split. Qed.
Print Assumptions C25_panics_refuted.

(** What holds: an input that starts with a complete BER value of any shape
    (see [Spec/BerSpec.v]) does not panic, and is not rejected. *)
Theorem C25_complete_value_partial : forall t b post,
  ber t b -> Z.of_nat (length b) < 2 ^ 47 -> exists d, ber2der (b ++ post) = BOk d.
Proof. intros t b post H L. destruct (ber2der_correct t b post H L) as (d & E & _). exact (ex_intro _ d E). Qed.
Print Assumptions C25_complete_value_partial.

(** C26 is false: no linear bound exists, and the growth is exponential. *)
Theorem C26_no_linear_bound_refuted : forall a b : nat,
  exists inp out, bytes_ok inp = true /\ ber2der inp = BOk out /\
    (a * length inp + b < length out)%nat.
Proof. exact no_linear_bound. Qed.
Print Assumptions C26_no_linear_bound_refuted.

Theorem C26_exponential_refuted : forall k, exists inp out,
  ber2der inp = BOk out /\ length inp = (4 * k + 6)%nat /\ (2 ^ k <= length out)%nat.
Proof. intros k. destruct (bomb_growth k) as (out & H). exact (ex_intro _ (bomb k) (ex_intro _ out H)). Qed.
Print Assumptions C26_exponential_refuted.

(** What holds: for complete BER values the output is at most twice the input. *)
Theorem C26_complete_value_partial : forall t b post,
  ber t b -> Z.of_nat (length b) < 2 ^ 47 ->
  exists d, ber2der (b ++ post) = BOk d /\ (length d <= 2 * length b)%nat.
Proof.
  intros t b post H L. destruct (ber2der_correct t b post H L) as (d & E & _ & S).
  exact (ex_intro _ d (conj E S)).
Qed.
Print Assumptions C26_complete_value_partial.

(** C53. A BER encoding of a value is converted to the DER encoding of that
    value. *)
Theorem C53_value_preserved : forall t b post,
  ber t b -> Z.of_nat (length b) < 2 ^ 47 ->
  exists d, ber2der (b ++ post) = BOk d /\ der t d /\ (length d <= 2 * length b)%nat.
Proof. exact ber2der_correct. Qed.
Print Assumptions C53_value_preserved.

(** Empty indefinite-length values are legal BER and are excluded above: their
    end marker is read as a component, so what follows is swallowed: here the
    two-element sequence { {} , 5 } becomes an error, and inside an enclosing
    indefinite value the meaning changes. *)
Theorem C53_empty_indefinite_refuted :
  ber2der [48; 128; 0; 0] = BErr /\
  ber2der [48; 128; 48; 128; 0; 0; 2; 1; 5; 0; 0; 0; 0] = BOk [48; 7; 48; 5; 0; 0; 2; 1; 5].
Proof. split; reflexivity. Qed.
Print Assumptions C53_empty_indefinite_refuted.
