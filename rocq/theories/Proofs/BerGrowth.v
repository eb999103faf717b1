(** A family of inputs on which the conversion grows exponentially. *)
From Coq Require Import Lia ZifyBool ZifyNat.
From Verif.Model Require Import Base Ber.
From Verif.Spec Require Import Addr BerSpec.
From Verif.Proofs Require Import NetIPProofs BerProofs.

Fixpoint units (k : nat) : bytes :=
  match k with O => [5; 0; 0; 0] | S k => [48; 2; 48; 128] ++ units k end.
Definition bomb (k : nat) : bytes := [48; 128] ++ units k.

Fixpoint objs (k : nat) : list aobj :=
  match k with
  | O => [APrim [5] []]
  | S k => AStruct [48] [AStruct [48] (objs k)] :: objs k
  end.

Lemma units_length k : length (units k) = (4 * k + 4)%nat.
Proof. induction k as [|k IH]; [reflexivity|]. cbn [units app length]. lia. Qed.

Lemma tag48 : tag_octets true [48].
Proof. apply tag_low; [lia|discriminate|reflexivity]. Qed.
Lemma tag5 : tag_octets false [5].
Proof. apply tag_low; [lia|discriminate|reflexivity]. Qed.

Lemma units_first k : firstn 2 (units k) <> [0; 0].
Proof. destruct k; discriminate. Qed.

Lemma read_units k : forall fuel pre cend, (4 * k + 2 <= fuel)%nat ->
  read_loop fuel (pre ++ units k) (length pre) cend true = BOk (objs k, (length pre + 4 * k + 2)%nat).
Proof.
  induction k as [|k IH]; intros fuel pre cend Hf.
  - destruct fuel as [|[|f]]; try lia. cbn [read_loop read_object]. rewrite orb_true_r.
    pose proof (read_header_def false [5] [0] 0 pre [0; 0] tag5 ltac:(constructor; lia) ltac:(lia) ltac:(cbn; lia)) as H.
    cbn [app length] in H. cbn [units]. rewrite H. cbn [bbind].
    pose proof (slice_app pre [5] [0; 0; 0]) as Sl. cbn [app length] in Sl. rewrite Sl.
    unfold slice at 1. replace (length pre + 1 + 1 + Z.to_nat 0 - (length pre + 1 + 1))%nat with 0%nat by lia.
    cbn [firstn]. replace (length pre + 1 + 1 + Z.to_nat 0)%nat with (length (pre ++ [5; 0])) by (rewrite app_length; cbn; lia).
    pose proof (is_term_true (pre ++ [5; 0]) []) as T. rewrite <- app_assoc in T. cbn [app] in T. rewrite T.
    cbn [bbind objs]. f_equal. f_equal. rewrite app_length. cbn [length]. lia.
  - destruct fuel as [|[|[|[|[|f]]]]]; try lia.
    set (ber := pre ++ units (S k)).
    assert (EB : ber = (pre ++ [48; 2; 48; 128]) ++ units k) by (subst ber; cbn [units]; rewrite <- app_assoc; reflexivity).
    assert (L4 : length (pre ++ [48; 2; 48; 128]) = (length pre + 4)%nat) by (rewrite app_length; reflexivity).
    pose proof (IH (S f) (pre ++ [48; 2; 48; 128])) as I1. rewrite L4, <- EB in I1.
    pose proof (IH (S (S (S (S f)))) (pre ++ [48; 2; 48; 128])) as I2. rewrite L4, <- EB in I2.
    (* the outer header *)
    pose proof (read_header_def true [48] [2] 2 pre ([48; 128] ++ units k) tag48 ltac:(constructor; lia) ltac:(lia) ltac:(rewrite app_length; cbn [length]; lia)) as H1.
    cbn [app length] in H1. change (pre ++ 48 :: 2 :: 48 :: 128 :: units k) with ber in H1.
    replace (length pre + 1 + 1 + Z.to_nat 2)%nat with (length pre + 4)%nat in H1 by lia.
    replace (length pre + 1 + 1)%nat with (length pre + 2)%nat in H1 by lia.
    (* the inner header *)
    pose proof (read_header_indef [48] (pre ++ [48; 2]) (units k) tag48) as H2.
    rewrite <- app_assoc in H2. cbn [app length] in H2. change (pre ++ 48 :: 2 :: 48 :: 128 :: units k) with ber in H2.
    rewrite app_length in H2. cbn [length] in H2.
    replace (length pre + 2 + 1 + 1)%nat with (length pre + 4)%nat in H2 by lia.
    assert (S1 : slice ber (length pre) (length pre + 1) = [48]).
    { pose proof (slice_app pre [48] (2 :: 48 :: 128 :: units k)) as Sl. exact Sl. }
    assert (S2 : slice ber (length pre + 2) (length pre + 2 + 1) = [48]).
    { pose proof (slice_app (pre ++ [48; 2]) [48] (128 :: units k)) as Sl. rewrite <- app_assoc in Sl.
      rewrite app_length in Sl. exact Sl. }
    (* inner object *)
    assert (R2 : read_object (S (S f)) ber (length pre + 2) = BOk (AStruct [48] (objs k), (length pre + 4 + 4 * k + 2 + 2)%nat)).
    { cbn [read_object]. rewrite H2. cbn [bbind]. rewrite S2. rewrite I1 by lia. reflexivity. }
    assert (R1 : read_object (S (S (S (S f)))) ber (length pre) = BOk (AStruct [48] [AStruct [48] (objs k)], (length pre + 4)%nat)).
    { remember (S (S (S f))) as f3 eqn:Ef3. cbn [read_object]. rewrite H1. cbn [bbind]. rewrite S1. subst f3.
      remember (S (S f)) as f2 eqn:Ef2. cbn [read_loop].
      destruct (Nat.ltb_spec (length pre + 2) (length pre + 4)); [|lia]. cbn [orb]. rewrite R2. cbn [bbind].
      subst f2. cbn [read_loop].
      destruct (Nat.ltb_spec (length pre + 4 + 4 * k + 2 + 2) (length pre + 4)); [lia|]. reflexivity. }
    remember (S (S (S (S f)))) as f4 eqn:Ef4. cbn [read_loop]. rewrite orb_true_r, R1. cbn [bbind].
    pose proof (is_term_false (pre ++ [48; 2; 48; 128]) (units k) [] ltac:(rewrite units_length; lia) (units_first k)) as T.
    rewrite app_nil_r, L4, <- EB in T. rewrite T. cbn [bbind]. rewrite I2 by lia. cbn [bbind fst snd objs].
    f_equal. f_equal. lia.
Qed.

Lemma bomb_read k : ber2der (bomb k) = BOk (encode_obj (AStruct [48] (objs k))).
Proof.
  unfold ber2der. cbn [bomb app]. change (48 :: 128 :: units k) with (bomb k).
  assert (L : length (bomb k) = (4 * k + 6)%nat) by (unfold bomb; rewrite app_length, units_length; cbn [length]; lia).
  rewrite L. replace (2 * (4 * k + 6) + 2)%nat with (S (8 * k + 13))%nat by lia.
  cbn [read_object]. pose proof (read_header_indef [48] [] (units k) tag48) as H. cbn [app length] in H.
  change (48 :: 128 :: units k) with (bomb k) in H. cbn [Nat.add] in H. rewrite H. cbn [bbind].
  pose proof (read_units k (8 * k + 13) [48; 128] 2 ltac:(lia)) as R. cbn [length] in R.
  change ([48; 128] ++ units k) with (bomb k) in R. rewrite R. cbn [bbind fst]. reflexivity.
Qed.

Lemma objs_size k : (2 ^ k <= length (flat_map encode_obj (objs k)))%nat.
Proof.
  induction k as [|k IH]; [cbn; lia|]. cbn [objs flat_map]. rewrite app_length.
  rewrite encode_struct. cbn [flat_map]. rewrite app_nil_r, encode_struct. rewrite !app_length.
  cbn [Nat.pow]. lia.
Qed.

Lemma bomb_growth k : exists out, ber2der (bomb k) = BOk out /\
  length (bomb k) = (4 * k + 6)%nat /\ (2 ^ k <= length out)%nat.
Proof.
  eexists. split; [apply bomb_read|]. split.
  - unfold bomb. rewrite app_length, units_length. cbn [length]. lia.
  - rewrite encode_struct, !app_length. pose proof (objs_size k). lia.
Qed.

Lemma bomb_bytes k : bytes_ok (bomb k) = true.
Proof. unfold bomb. apply bytes_ok_app. split; [reflexivity|]. induction k as [|k IH]; [reflexivity|]. cbn [units]. apply bytes_ok_app. split; [reflexivity|exact IH]. Qed.

Lemma pow2_ge m : (m + 1 <= 2 ^ m)%nat.
Proof. induction m as [|m IH]; cbn [Nat.pow]; lia. Qed.

Lemma no_linear_bound a b : exists inp out, bytes_ok inp = true /\ ber2der inp = BOk out /\
  (a * length inp + b < length out)%nat.
Proof.
  set (m := (14 * a + b + 1)%nat). destruct (bomb_growth (2 * m)) as (out & E & L & G).
  exists (bomb (2 * m)), out. split; [apply bomb_bytes|]. split; [exact E|]. rewrite L.
  assert (P : (2 ^ (2 * m) = 2 ^ m * 2 ^ m)%nat) by (rewrite <- Nat.pow_add_r; f_equal; lia).
  rewrite P in G. pose proof (pow2_ge m) as Q. clear P E L.
  assert ((m + 1) * (m + 1) <= 2 ^ m * 2 ^ m)%nat by (apply Nat.mul_le_mono; assumption).
  assert (a * (4 * (2 * m) + 6) + b < (m + 1) * (m + 1))%nat by (subst m; nia). lia.
Qed.
