(** BER to DER conversion: validator/lib/ber.go. *)
From Verif.Model Require Import Base.

(** ber.go:19-22 asn1Structured, 40-44 asn1Primitive.  The field [length] of a
    primitive always equals [len(content)] (ber.go:208-212). *)
Inductive aobj :=
| AStruct (tag : bytes) (content : list aobj)
| APrim (tag : bytes) (content : bytes).

(** ber.go:95-102 lengthLength on a non-negative int; [fuel] bounds the number
    of shifts, one per byte of an int. *)
Fixpoint length_length (fuel : nat) (i : Z) : nat :=
  match fuel with
  | O => 1
  | S f => if 255 <? i then S (length_length f (Z.shiftr i 8)) else 1
  end.

(** ber.go:81-92 marshalLongLength *)
Fixpoint marshal_long (n : nat) (i : Z) : bytes :=
  match n with
  | O => []
  | S m => Z.land (Z.shiftr i (8 * Z.of_nat m)) 255 :: marshal_long m i
  end.

(** ber.go:118-136 encodeLength; a Go int has at most 8 bytes. *)
Definition encode_length (n : Z) : bytes :=
  if 128 <=? n
  then let l := length_length 8 n in
       Z.lor 128 (Z.land (Z.of_nat l) 255) :: marshal_long l n
  else [Z.land n 255].

(** ber.go:24-38, 46-57 encodeTo *)
Fixpoint encode_obj (o : aobj) : bytes :=
  match o with
  | AStruct tag c =>
      let inner := flat_map encode_obj c in
      tag ++ encode_length (Z.of_nat (length inner)) ++ inner
  | APrim tag c => tag ++ encode_length (Z.of_nat (length c)) ++ c
  end.

(** Results: a value, an error, a panic (index out of range), or the model's
    own fuel running out - which never happens, see [Proofs/BerProofs.v]. *)
Inductive bres (A : Type) :=
| BOk (a : A)
| BErr
| BPanic
| BFuel.
Arguments BOk {A} a.
Arguments BErr {A}.
Arguments BPanic {A}.
Arguments BFuel {A}.

Definition bbind {A B} (x : bres A) (f : A -> bres B) : bres B :=
  match x with BOk a => f a | BErr => BErr | BPanic => BPanic | BFuel => BFuel end.

(** [ber[offset]] *)
Definition at_ (ber : bytes) (off : nat) : bres Z :=
  match nth_error ber off with Some b => BOk b | None => BPanic end.

(** ber.go:144-153: end of a multi-byte tag.  The tag number itself is
    computed but never used. *)
Fixpoint tag_end (fuel : nat) (ber : bytes) (off : nat) : bres nat :=
  match fuel with
  | O => BFuel
  | S f => bbind (at_ ber off) (fun b =>
             if 128 <=? b then tag_end f ber (S off) else BOk (S off))
  end.

(** ber.go:185-188 *)
Fixpoint read_length (n : nat) (ber : bytes) (off : nat) (acc : Z) : bres (Z * nat) :=
  match n with
  | O => BOk (acc, off)
  | S m => bbind (at_ ber off) (fun b => read_length m ber (S off) (acc * 256 + b))
  end.

(** [ber[i:j]], used only with i <= j <= len. *)
Definition slice (l : bytes) (i j : nat) : bytes := firstn (j - i) (skipn i l).

(** ber.go:249-255 isIndefiniteTermination: bytes.Index(..., {0,0}) == 0 *)
Definition is_term (ber : bytes) (off : nat) : bres bool :=
  if Z.of_nat (length ber) - Z.of_nat off <? 2 then BErr
  else match nth_error ber off, nth_error ber (S off) with
       | Some a, Some b => BOk ((a =? 0) && (b =? 0))
       | _, _ => BOk false
       end.

(** ber.go:138-206, the part of readObject before the object is built:
    (constructed, indefinite, tag end, content start, content end). *)
Definition read_header (ber : bytes) (off : nat) : bres (bool * bool * nat * nat * nat) :=
  bbind (at_ ber off) (fun b =>
  bbind (if Z.land b 31 =? 31 then tag_end (S (length ber)) ber (S off) else BOk (S off)) (fun te =>
  let constructed := negb (Z.land b 32 =? 0) in
  match nth_error ber te with
  | None => BErr
  | Some l =>
      let o1 := S te in
      bbind
        (if 128 <? l then
           let nb := Z.land l 127 in
           if 4 <? nb then BErr
           else bbind (at_ ber o1) (fun b0 =>
                if (nb =? 4) && (127 <? b0) then BErr
                else if b0 =? 0 then BErr
                else bbind (read_length (Z.to_nat nb) ber o1 0) (fun r =>
                     BOk (fst r, snd r, false)))
         else if l =? 128 then BOk (0, o1, true)
         else BOk (l, o1, false))
        (fun r =>
           let '(len, o2, indef) := r in
           if Z.of_nat (length ber) <? Z.of_nat o2 + len then BErr
           else if indef && negb constructed then BErr
           else BOk (constructed, indef, te, o2, o2 + Z.to_nat len)%nat)
  end)).

(** ber.go:138-247 readObject and its loop 215-233.  [fuel] decreases at each
    call and each iteration. *)
Fixpoint read_object (fuel : nat) (ber : bytes) (off : nat) {struct fuel} : bres (aobj * nat) :=
  match fuel with
  | O => BFuel
  | S f =>
      bbind (read_header ber off) (fun h =>
      let '(constructed, indef, te, o2, cend) := h in
      let tag := slice ber off te in
      if constructed : bool then
        bbind (read_loop f ber o2 cend indef) (fun r =>
        BOk (AStruct tag (fst r), if indef : bool then snd r + 2 else cend)%nat)
      else BOk (APrim tag (slice ber o2 cend), cend))
  end
with read_loop (fuel : nat) (ber : bytes) (off cend : nat) (indef : bool) {struct fuel}
  : bres (list aobj * nat) :=
  match fuel with
  | O => BFuel
  | S f =>
      if Nat.ltb off cend || indef then
        bbind (read_object f ber off) (fun r =>
        let (o, off') := r in
        if indef then
          bbind (is_term ber off') (fun t =>
          if t : bool then BOk ([o], off')
          else bbind (read_loop f ber off' cend indef) (fun r2 => BOk (o :: fst r2, snd r2)))
        else bbind (read_loop f ber off' cend indef) (fun r2 => BOk (o :: fst r2, snd r2)))
      else BOk ([], off)
  end.

(** ber.go:60-78 BER2DER *)
Definition ber2der (ber : bytes) : bres bytes :=
  match ber with
  | [] => BErr
  | _ => bbind (read_object (2 * length ber + 2) ber 0) (fun r => BOk (encode_obj (fst r)))
  end.
