(** Unmarshal reads what Marshal writes. *)
From Coq Require Import Lia ZifyBool ZifyNat.
From Verif.Model Require Import Base Str NetIP CertRes Ber Asn1 GoTime Der.
From Verif.Spec Require Import Addr BerSpec.
From Verif.Proofs Require Import NetIPProofs BerProofs Asn1Proofs DerPrim.

Section Ind.
  Variable P : gotype -> Prop.
  Hypothesis Hsimple : forall t, (match t with GStruct _ _ | GSlice _ => False | _ => True end) -> P t.
  Hypothesis Hstruct : forall rc fs, Forall (fun f => P (snd f)) fs -> P (GStruct rc fs).
  Hypothesis Hslice : forall t, P t -> P (GSlice t).
  Fixpoint gotype_rec2 (t : gotype) : P t :=
    match t with
    | GStruct rc fs =>
        Hstruct rc fs
          ((fix go (fs : list (params * gotype)) : Forall (fun f => P (snd f)) fs :=
              match fs with
              | [] => Forall_nil _
              | f :: fs' => Forall_cons f (gotype_rec2 (snd f)) (go fs')
              end) fs)
    | GSlice t' => Hslice t' (gotype_rec2 t')
    | t0 => Hsimple t0 ltac:(exact I)
    end.
End Ind.

(** The loops over the fields of a struct *)
Fixpoint parse_fields (fs : list (params * gotype)) (l : bytes) : option (list govalue) :=
  match fs with
  | [] => Some []
  | (p, t) :: fs' =>
      match parse_field t p l with
      | Some (v, r) => opt_map (cons v) (parse_fields fs' r)
      | None => None
      end
  end.
Fixpoint make_fields (fs : list (params * gotype)) (l : list govalue) : option bytes :=
  match fs, l with
  | [], [] => Some []
  | (p, t) :: fs', v :: l' =>
      match make_field t p v, make_fields fs' l' with
      | Some a, Some b => Some (a ++ b)
      | _, _ => None
      end
  | _, _ => None
  end.

Definition decode_inner (t : gotype) (p : params) (h : hdr) (inner full : bytes) : option govalue :=
  match t with
  | GRaw => Some (VRaw (mkRaw (h_class h) (h_cons h) (h_tag h) inner full))
  | GOid => opt_map VOid (parse_oid_value inner)
  | GBits => opt_map VBits (parse_bitstring inner)
  | GTime => opt_map VTime (if wire_tag p t h =? 23 then parse_utc inner else parse_generalized inner)
  | GBig => opt_map (fun n => VBig (Some n)) (parse_bigint inner)
  | GInt => opt_map VInt (parse_int64 inner)
  | GOctets => Some (VOctets inner)
  | GString => opt_map VStr (parse_string (wire_tag p t h) inner)
  | GStruct rc fs => opt_map (VStruct (if rc then full else [])) (parse_fields fs inner)
  | GSlice t' => opt_map VSlice (many (parse_field t' p0) (length inner) inner)
  | GBool => opt_map VBool (parse_bool inner)
  end.

Lemma parse_field_eq : forall t p l,
  parse_field t p l =
  let default := match default_value p t with Some v => Some (v, l) | None => None end in
  match l with
  | [] => default
  | _ =>
      match parse_header l with
      | None => None
      | Some (h0, r0) =>
          match open_explicit p t h0 r0 with
          | Fail => None
          | Default => default
          | Go h r =>
              if negb (matches p t h) then default
              else if Z.of_nat (length r) <? h_len h then None
              else
                let rest := skipn (Z.to_nat (h_len h)) r in
                opt_map (fun v => (v, rest))
                  (decode_inner t p h (firstn (Z.to_nat (h_len h)) r) (firstn (length l - length rest) l))
          end
      end
  end.
Proof.
  intros t p l. destruct t; reflexivity.
Qed.

(** ** The octets around a value *)
Definition wrap (p : params) (cons : bool) (tag : Z) (b : bytes) : bytes :=
  match p_tag p with
  | Some k => if p_explicit p then put_tlv 2 true k (put_tlv 0 cons tag b) else put_tlv 2 cons k b
  | None => put_tlv 0 cons tag b
  end.

Definition make_body (t : gotype) (p : params) (v : govalue) : option bytes :=
  match t, v with
  | GOid, VOid l => put_oid l
  | GBits, VBits b => Some (put_bits b)
  | GTime, VTime tm => if use_generalized p tm then put_generalized tm else put_utc tm
  | GBig, VBig (Some n) => Some (put_int n)
  | GInt, VInt n => Some (put_int n)
  | GOctets, VOctets b => Some b
  | GString, VStr s => put_string p s
  | GStruct rc fs, VStruct raw l =>
      match rc, raw with
      | true, _ :: _ => Some (match parse_header raw with Some (_, r) => r | None => raw end)
      | _, _ => make_fields fs l
      end
  | GSlice t', VSlice l =>
      opt_map (fun bs => concat (if p_set p then sort_bytes bs else bs))
        (all_some (map (make_field t' p0) l))
  | GBool, VBool b => Some [if b then 255 else 0]
  | _, _ => None
  end.
Definition make_tag (t : gotype) (p : params) (v : govalue) : option Z :=
  match t, v with
  | GString, VStr s => string_tag p s
  | GTime, VTime tm => Some (if use_generalized p tm then 24 else 23)
  | _, _ => match universal t with
            | Some (u, _) => if p_set p then (if u =? 16 then Some 17 else None) else Some u
            | None => None
            end
  end.
Definition is_cons (t : gotype) : bool := match universal t with Some (_, c) => c | None => false end.

Lemma make_field_eq : forall t p v,
  make_field t p v =
  if left_out p v then Some []
  else match t, v with
  | GRaw, VRaw r => Some (match r_full r with
                          | [] => put_tlv (r_class r) (r_cons r) (r_tag r) (r_bytes r)
                          | f => f
                          end)
  | GRaw, _ => None
  | _, _ => match make_tag t p v, make_body t p v with
            | Some tag, Some b => Some (wrap p (is_cons t) tag b)
            | _, _ => None
            end
  end.
Proof.
  intros t p v. destruct t; try reflexivity; destruct v; reflexivity.
Qed.

(** ** Values that are written so that they can be read back *)

(** The parameters of a field: small tag numbers, an explicit tag has a number,
    only sequences become sets, strings and times are not tagged, the string
    type is left open or IA5. *)
Definition params_ok (t : gotype) (p : params) : Prop :=
  match p_tag p with Some k => 0 <= k < 31 | None => p_explicit p = false end /\
  (p_set p = true -> match t with GSlice _ => True | _ => False end) /\
  match t with
  | GString => p_tag p = None /\ (p_str p = 0 \/ p_str p = 22)
  | GTime => p_tag p = None
  | _ => True
  end.

(** A raw value that is what Unmarshal makes of its octets *)
Definition raw_fits (p : params) (r : raw) : Prop :=
  r_full r <> [] /\
  (forall rest, parse_header (r_full r ++ rest)
     = Some (mkH (r_class r) (r_cons r) (r_tag r) (Z.of_nat (length (r_bytes r))), r_bytes r ++ rest)) /\
  match p_tag p with
  | Some k => r_class r = 2 /\ r_tag r = k /\ (p_explicit p = true -> r_cons r = true /\ r_bytes r <> [])
  | None => True
  end.

(** A field that is left out is not taken for what follows it. *)
Definition skips (p : params) (t : gotype) (b : bytes) : Prop :=
  match b with
  | [] => True
  | _ => match parse_header b with
         | Some (h, r) => match open_explicit p t h r with
                          | Fail => False
                          | Default => True
                          | Go h' _ => matches p t h' = false
                          end
         | None => False
         end
  end.

Definition str_fits (p : params) (s : bytes) : Prop :=
  if p_str p =? 22 then forallb (fun b => b <? 128) s = true
  else forallb (is_printable false false) s = true \/ utf8_ok s = true.

Fixpoint fits (t : gotype) (p : params) (v : govalue) {struct t} : Prop :=
  params_ok t p /\
  match t, v with
  | GRaw, VRaw r => raw_fits p r
  | GOid, VOid l => oid_fits l
  | GBits, VBits b => bits_fit b
  | GTime, VTime tm => date_fits tm
  | GBig, VBig (Some n) => True
  | GInt, VInt n => - 2 ^ 63 <= n < 2 ^ 63
  | GOctets, VOctets b => True
  | GBool, VBool b => True
  | GString, VStr s => str_fits p s
  | GStruct false fs, VStruct [] l =>
      (fix go (fs : list (params * gotype)) (l : list govalue) : Prop :=
         match fs, l with
         | [], [] => True
         | (p, t) :: fs', v :: l' =>
             (if left_out p v
              then default_value p t = Some v /\
                   match make_fields fs' l' with Some b => skips p t b | None => False end
              else fits t p v) /\ go fs' l'
         | _, _ => False
         end) fs l
  | GSlice t', VSlice l =>
      (fix all (l : list govalue) : Prop :=
         match l with [] => True | v :: l' => fits t' p0 v /\ all l' end) l /\
      (p_set p = true ->
       match all_some (map (make_field t' p0) l) with Some bs => sort_bytes bs = bs | None => False end)
  | _, _ => False
  end.

Fixpoint fits_fields (fs : list (params * gotype)) (l : list govalue) : Prop :=
  match fs, l with
  | [], [] => True
  | (p, t) :: fs', v :: l' =>
      (if left_out p v
       then default_value p t = Some v /\
            match make_fields fs' l' with Some b => skips p t b | None => False end
       else fits t p v) /\ fits_fields fs' l'
  | _, _ => False
  end.

Lemma fits_struct : forall fs p l, fits (GStruct false fs) p (VStruct [] l) <->
  params_ok (GStruct false fs) p /\ fits_fields fs l.
Proof.
  intros fs p l. reflexivity.
Qed.

Lemma fits_slice : forall t p l, fits (GSlice t) p (VSlice l) <->
  params_ok (GSlice t) p /\ Forall (fits t p0) l /\
  (p_set p = true ->
   match all_some (map (make_field t p0) l) with Some bs => sort_bytes bs = bs | None => False end).
Proof.
  intros t p l.
  assert (L : forall l, (fix all (l : list govalue) : Prop :=
         match l with [] => True | v :: l' => fits t p0 v /\ all l' end) l <-> Forall (fits t p0) l).
  { induction l0 as [|v l0 IH]; [split; auto|]. rewrite IH. split.
    - intros [A B]. now constructor.
    - intros A. inversion A. auto. }
  cbn [fits]. now rewrite L.
Qed.

(** ** Such values can be written *)
Lemma fits_tag : forall t p v, fits t p v -> t <> GRaw -> exists tag, make_tag t p v = Some tag.
Proof.
  intros t p v H Ht. destruct t; try contradiction; destruct v; cbn [fits] in H; destruct H as [(_ & S & X) F];
    try contradiction; unfold make_tag; cbn [universal]; try (now eexists);
    try (destruct (p_set p) eqn:E; [destruct (S eq_refl)|now eexists]).
  - (* string *) unfold string_tag. destruct (p_str p =? 0) eqn:Z0; [|now eexists].
    destruct (forallb (is_printable false false) b) eqn:P; [now eexists|].
    unfold str_fits in F. destruct (p_str p =? 22) eqn:Z22; [lia|]. destruct F as [F|F]; [congruence|].
    rewrite F. now eexists.
  - (* slice *) destruct (p_set p); now eexists.
Qed.

Lemma fits_make : forall t p v, fits t p v -> exists b, make_field t p v = Some b.
Proof.
  induction t using gotype_rec2; intros p v Hf; rewrite make_field_eq;
    (destruct (left_out p v); [now eexists|]).
  - destruct (match t with GRaw => true | _ => false end) eqn:R.
    { destruct t; try discriminate. destruct v; cbn [fits] in Hf; try (now destruct Hf). now eexists. }
    destruct (fits_tag t p v Hf ltac:(intros ->; discriminate)) as (tag & ->).
    assert (B : exists b, make_body t p v = Some b).
    { destruct t; try contradiction; try discriminate; destruct v; cbn [fits] in Hf; destruct Hf as [(_ & S & X) F];
        try contradiction; cbn [make_body].
      - destruct (oid_back l F) as (b & -> & _). now eexists.
      - now eexists.
      - destruct (use_generalized p t) eqn:U.
        + destruct (generalized_back t F) as (b & -> & _). now eexists.
        + unfold use_generalized in U. destruct (utc_back t F ltac:(lia)) as (b & -> & _). now eexists.
      - destruct n; [now eexists|contradiction].
      - now eexists.
      - now eexists.
      - unfold put_string. destruct X as [_ [X|X]]; rewrite X.
        + now eexists.
        + unfold str_fits in F. rewrite X in F. cbn [Z.eqb] in *. change (22 =? 22) with true in *. cbv iota in *.
          rewrite F. now eexists.
      - now eexists. }
    destruct B as (b & ->). destruct t; try discriminate; try contradiction; now eexists.
  - destruct rc; [destruct v; cbn [fits] in Hf; now destruct Hf|].
    destruct v as [| | | | | | | |raw l| |]; cbn [fits] in Hf; try (now destruct Hf). destruct raw; [|now destruct Hf].
    assert (S : p_set p = false) by (destruct Hf as [(_ & S & _) _]; destruct (p_set p); [destruct (S eq_refl)|reflexivity]).
    apply fits_struct in Hf. destruct Hf as [_ Hf].
    cbn [make_tag universal make_body]. rewrite S.
    assert (G : exists b, make_fields fs l = Some b).
    { clear S. revert l Hf. induction fs as [|[p' t] fs IH]; intros [|v l] Hf; cbn [fits_fields] in Hf; try contradiction.
      - now eexists.
      - destruct Hf as [A B]. inversion H; subst. cbn [make_fields snd] in *.
        destruct (IH H3 l B) as (b2 & ->).
        destruct (left_out p' v) eqn:Lo.
        + rewrite make_field_eq, Lo. now eexists.
        + destruct (H2 p' v A) as (b1 & ->). now eexists. }
    destruct G as (b & ->). now eexists.
  - destruct v as [| | | | | | | | |l|]; cbn [fits] in Hf; try (now destruct Hf).
    apply fits_slice in Hf. destruct Hf as [_ [Hf _]].
    cbn [make_tag universal make_body].
    assert (G : exists bs, all_some (map (make_field t p0) l) = Some bs).
    { induction Hf as [|v l Hv Hl IH]; [now eexists|]. cbn [map all_some].
      destruct (IHt p0 v Hv) as (b & ->). destruct IH as (bs & ->). now eexists. }
    destruct G as (bs & ->). cbn [opt_map]. destruct (p_set p); now eexists.
Qed.

(** ** Reading back *)
Definition inner_hdr (p : params) (cons : bool) (tag n : Z) : hdr :=
  match p_tag p with
  | Some k => if p_explicit p then mkH 0 cons tag n else mkH 2 cons k n
  | None => mkH 0 cons tag n
  end.

Lemma firstn_app_exact : forall (A : Type) (a b : list A), firstn (length a) (a ++ b) = a.
Proof. intros. rewrite firstn_app, firstn_all, Nat.sub_diag. cbn [firstn]. apply app_nil_r. Qed.
Lemma skipn_app_exact : forall (A : Type) (a b : list A), skipn (length a) (a ++ b) = b.
Proof. intros. rewrite skipn_app, skipn_all, Nat.sub_diag. reflexivity. Qed.

Lemma parse_go : forall t p l h0 r0 h b rest v, l <> [] ->
  parse_header l = Some (h0, r0) -> open_explicit p t h0 r0 = Go h (b ++ rest) ->
  h_len h = Z.of_nat (length b) -> matches p t h = true ->
  (forall full, full = firstn (length l - length rest) l -> decode_inner t p h b full = Some v) ->
  parse_field t p l = Some (v, rest).
Proof.
  intros t p l h0 r0 h b rest v Hl Hh Ho Hn Hm Hd. rewrite parse_field_eq. cbn zeta.
  destruct l as [|x l]; [congruence|]. rewrite Hh, Ho, Hm, Hn. cbn [negb].
  rewrite app_length. destruct (Z.of_nat (length b + length rest) <? Z.of_nat (length b)) eqn:E; [lia|].
  rewrite Nat2Z.id, firstn_app_exact, skipn_app_exact. now rewrite Hd.
Qed.

Lemma read_wrapped : forall t p tag b v rest, t <> GRaw -> params_ok t p -> 0 <= tag < 31 ->
  Z.of_nat (length (wrap p (is_cons t) tag b)) < 2 ^ 31 ->
  matches p t (inner_hdr p (is_cons t) tag (Z.of_nat (length b))) = true ->
  (forall full, decode_inner t p (inner_hdr p (is_cons t) tag (Z.of_nat (length b))) b full = Some v) ->
  parse_field t p (wrap p (is_cons t) tag b ++ rest) = Some (v, rest).
Proof.
  intros t p tag b v rest Ht (Hp & _) Htag Hlen Hm Hd. unfold wrap, inner_hdr in *.
  destruct (p_tag p) as [k|] eqn:Ek.
  - destruct (p_explicit p) eqn:Ee.
    + set (i := put_tlv 0 (is_cons t) tag b) in *.
      pose proof (put_tlv_length 2 true k i) as L1. pose proof (put_tlv_length 0 (is_cons t) tag b) as L2. fold i in L2.
      destruct (put_tlv_cons 2 true k i) as (x & w & X).
      eapply parse_go with (b := b) (h0 := mkH 2 true k (Z.of_nat (length i))) (r0 := i ++ rest).
      * rewrite X. discriminate.
      * apply tlv_read; lia.
      * unfold open_explicit. rewrite Ee, Ek. cbn [h_class h_tag h_len h_cons].
        destruct (put_tlv_cons 0 (is_cons t) tag b) as (y & z & Y). fold i in Y.
        destruct (i ++ rest) as [|y' z'] eqn:IR; [rewrite Y in IR; discriminate|].
        change (2 =? 2) with true. rewrite Z.eqb_refl, orb_true_r. cbn [andb].
        destruct (0 <? Z.of_nat (length i)) eqn:P; [|lia].
        assert (PH : parse_header (y' :: z') = Some (mkH 0 (is_cons t) tag (Z.of_nat (length b)), b ++ rest)).
        { rewrite <- IR. unfold i. apply tlv_read; lia. }
        rewrite PH. destruct t; try reflexivity. congruence.
      * reflexivity.
      * exact Hm.
      * intros. apply Hd.
    + destruct (put_tlv_cons 2 (is_cons t) k b) as (x & w & X). pose proof (put_tlv_length 2 (is_cons t) k b) as L1.
      eapply parse_go with (b := b).
      * rewrite X. discriminate.
      * apply tlv_read; lia.
      * unfold open_explicit. rewrite Ee. reflexivity.
      * reflexivity.
      * exact Hm.
      * intros. apply Hd.
  - destruct (put_tlv_cons 0 (is_cons t) tag b) as (x & w & X). pose proof (put_tlv_length 0 (is_cons t) tag b) as L1.
    eapply parse_go with (b := b).
    + rewrite X. discriminate.
    + apply tlv_read; lia.
    + unfold open_explicit. rewrite Hp. reflexivity.
    + reflexivity.
    + exact Hm.
    + intros. apply Hd.
Qed.

Lemma tag_wire : forall t p v tag n, fits t p v -> t <> GRaw -> make_tag t p v = Some tag ->
  wire_tag p t (mkH 0 (is_cons t) tag n) = tag /\ 0 <= tag < 31.
Proof.
  intros t p v tag n H Ht Hm. unfold wire_tag.
  destruct t; try contradiction; destruct v; cbn [fits] in H; destruct H as [(_ & S & X) F];
    try contradiction; unfold make_tag in Hm; cbn [universal] in *; cbn [h_class h_tag];
    try (destruct (p_set p) eqn:E; [destruct (S eq_refl)|injection Hm as <-; split; [reflexivity|lia]]);
    try (destruct (p_set p) eqn:E; [destruct (S eq_refl)|]).
  - (* time *) injection Hm as <-. destruct (use_generalized p t); split; try reflexivity; lia.
  - (* string *) unfold string_tag in Hm. destruct X as [_ [X|X]]; rewrite X in Hm; cbn [Z.eqb] in Hm.
    + destruct (forallb (is_printable false false) b); [injection Hm as <-; split; [reflexivity|lia]|].
      destruct (utf8_ok b); [injection Hm as <-; split; [reflexivity|lia]|discriminate].
    + injection Hm as <-. split; [reflexivity|lia].
  - (* slice *) destruct (p_set p); injection Hm as <-; split; try reflexivity; lia.
Qed.

Lemma wrap_matches : forall t p v tag n, fits t p v -> t <> GRaw -> make_tag t p v = Some tag ->
  matches p t (inner_hdr p (is_cons t) tag n) = true.
Proof.
  intros t p v tag n H Ht Hm. destruct (tag_wire t p v tag n H Ht Hm) as [W B].
  unfold matches, inner_hdr, is_cons in *.
  destruct (universal t) as [[u c]|] eqn:U; [|destruct t; try discriminate; congruence].
  destruct (p_tag p) as [k|].
  - destruct (p_explicit p); cbn [h_class h_tag h_cons negb andb orb].
    + rewrite W, (Z.eqb_refl tag). cbn [Z.eqb andb]. apply Bool.eqb_reflx.
    + rewrite (Z.eqb_refl k). cbn [andb]. change (2 =? 2) with true. cbn [andb]. apply Bool.eqb_reflx.
  - cbn [h_class h_tag h_cons negb andb orb]. rewrite W, (Z.eqb_refl tag). cbn [Z.eqb andb]. apply Bool.eqb_reflx.
Qed.

(** Fields that are left out *)
Lemma read_skipped : forall t p v b, left_out p v = true -> default_value p t = Some v -> skips p t b ->
  parse_field t p b = Some (v, b).
Proof.
  intros t p v b _ Hd Hs. rewrite parse_field_eq. cbn zeta. rewrite Hd. destruct b as [|x b]; [reflexivity|].
  cbn [skips] in Hs. destruct (parse_header (x :: b)) as [[h r]|]; [|contradiction].
  destruct (open_explicit p t h r) as [h' r'| |]; [|reflexivity|contradiction]. now rewrite Hs.
Qed.

Lemma wrap_nonempty : forall p c tag b, wrap p c tag b <> [].
Proof.
  intros. unfold wrap. destruct (p_tag p); [destruct (p_explicit p)|].
  - destruct (put_tlv_cons 2 true z (put_tlv 0 c tag b)) as (x & w & ->). discriminate.
  - destruct (put_tlv_cons 2 c z b) as (x & w & ->). discriminate.
  - destruct (put_tlv_cons 0 c tag b) as (x & w & ->). discriminate.
Qed.
Lemma wrap_longer : forall p c tag b, (length b < length (wrap p c tag b))%nat.
Proof.
  intros. unfold wrap. destruct (p_tag p); [destruct (p_explicit p)|].
  - pose proof (put_tlv_length 2 true z (put_tlv 0 c tag b)). pose proof (put_tlv_length 0 c tag b). lia.
  - apply put_tlv_length.
  - apply put_tlv_length.
Qed.

Lemma made_nonempty : forall t p v b, fits t p v -> left_out p v = false -> make_field t p v = Some b -> b <> [].
Proof.
  intros t p v b Hf Lo Hm. rewrite make_field_eq, Lo in Hm.
  destruct (match t with GRaw => true | _ => false end) eqn:R.
  - destruct t; try discriminate. destruct v; cbn [fits] in Hf; try (now destruct Hf).
    destruct Hf as [_ (Ne & _)]. injection Hm as <-. destruct (r_full r) as [|x l]; congruence.
  - assert (X : match make_tag t p v, make_body t p v with
            | Some tag, Some b => Some (wrap p (is_cons t) tag b)
            | _, _ => None
            end = Some b) by (destruct t; try discriminate; exact Hm).
    destruct (make_tag t p v); [|discriminate]. destruct (make_body t p v); [|discriminate].
    injection X as <-. apply wrap_nonempty.
Qed.

Lemma left_out_p0 : forall v, left_out p0 v = false.
Proof. reflexivity. Qed.

(** Slices *)
Lemma many_back : forall t l bs f,
  Forall (fits t p0) l -> all_some (map (make_field t p0) l) = Some bs ->
  Z.of_nat (length (concat bs)) < 2 ^ 31 -> (length (concat bs) <= f)%nat ->
  (forall v b rest, In v l -> make_field t p0 v = Some b -> Z.of_nat (length b) < 2 ^ 31 ->
     parse_field t p0 (b ++ rest) = Some (v, rest)) ->
  many (parse_field t p0) f (concat bs) = Some l.
Proof.
  induction l as [|v l IH]; intros bs f Hf Ha Hl Hn Hr.
  - cbn [map all_some] in Ha. injection Ha as <-. destruct f; reflexivity.
  - inversion Hf; subst. cbn [map all_some] in Ha. destruct (make_field t p0 v) as [b|] eqn:Eb; [|discriminate].
    destruct (all_some (map (make_field t p0) l)) as [bs'|] eqn:Ebs; [|discriminate].
    cbn [opt_map] in Ha. injection Ha as <-. cbn [concat] in *. rewrite app_length in *.
    pose proof (made_nonempty t p0 v b H1 (left_out_p0 v) Eb) as Ne.
    assert (Lb : (0 < length b)%nat) by (destruct b; [congruence|cbn [length]; lia]).
    destruct f as [|f]; [lia|].
    pose proof (Hr v b (concat bs') (or_introl eq_refl) Eb ltac:(lia)) as R.
    destruct (b ++ concat bs') as [|x w] eqn:W; [destruct b; [congruence|discriminate]|].
    cbn [many]. rewrite R. rewrite (IH bs' f); [reflexivity|assumption|reflexivity|lia|lia|].
    intros v' b' rest Hin. apply Hr. now right.
Qed.

(** Structs *)
Lemma fields_back : forall fs l b,
  Forall (fun f => forall p v b, fits (snd f) p v -> left_out p v = false -> make_field (snd f) p v = Some b ->
            Z.of_nat (length b) < 2 ^ 31 -> forall rest, parse_field (snd f) p (b ++ rest) = Some (v, rest)) fs ->
  fits_fields fs l -> make_fields fs l = Some b -> Z.of_nat (length b) < 2 ^ 31 ->
  parse_fields fs b = Some l.
Proof.
  induction fs as [|[p t] fs IH]; intros [|v l] b Hr Hf Hm Hl; cbn [fits_fields] in Hf; try contradiction.
  - reflexivity.
  - destruct Hf as [Hv Hl']. cbn [make_fields] in Hm.
    destruct (make_field t p v) as [b1|] eqn:E1; [|discriminate].
    destruct (make_fields fs l) as [b2|] eqn:E2; [|discriminate]. injection Hm as <-.
    inversion Hr; subst. cbn [snd] in *. rewrite app_length in Hl. cbn [parse_fields].
    destruct (left_out p v) eqn:Lo.
    + rewrite make_field_eq, Lo in E1. injection E1 as <-. cbn [app]. destruct Hv as [Hd Hs].
      rewrite (read_skipped t p v b2 Lo Hd Hs). rewrite (IH l b2); [reflexivity|assumption|assumption|assumption|lia].
    + rewrite (H1 p v b1 Hv Lo E1 ltac:(lia)). rewrite (IH l b2); [reflexivity|assumption|assumption|assumption|lia].
Qed.

Theorem field_back : forall t p v b, fits t p v -> left_out p v = false -> make_field t p v = Some b ->
  Z.of_nat (length b) < 2 ^ 31 -> forall rest, parse_field t p (b ++ rest) = Some (v, rest).
Proof.
  induction t using gotype_rec2; intros p v b Hf Lo Hm Hl rest.
  - destruct (match t with GRaw => true | _ => false end) eqn:R.
    + destruct t; try discriminate. destruct v as [r| | | | | | | | | |]; cbn [fits] in Hf; try (now destruct Hf).
      destruct Hf as [(Hp & _) (Ne & Hh & Ht)]. rewrite make_field_eq, Lo in Hm.
      assert (b = r_full r) by (injection Hm as <-; destruct (r_full r); congruence). subst b.
      assert (M : matches p GRaw (mkH (r_class r) (r_cons r) (r_tag r) (Z.of_nat (length (r_bytes r)))) = true).
      { unfold matches. cbn [universal h_class h_tag h_cons]. rewrite andb_true_r.
        destruct (p_tag p) as [k|]; [|reflexivity]. destruct Ht as (Hc & Htg & _).
        destruct (p_explicit p); [reflexivity|]. cbn [negb andb orb]. rewrite Hc, Htg, (Z.eqb_refl k). reflexivity. }
      eapply parse_go with (b := r_bytes r).
      * intros X. apply app_eq_nil in X. tauto.
      * apply Hh.
      * unfold open_explicit. destruct (p_explicit p) eqn:Ee; [|reflexivity].
        destruct (p_tag p) as [k|]; [|discriminate]. destruct Ht as (Hc & Htg & Hx). destruct (Hx eq_refl) as [Hk Hb].
        cbn [h_class h_tag h_cons h_len]. rewrite Hc, Htg, Hk, (Z.eqb_refl k), orb_true_r.
        destruct (r_bytes r ++ rest) eqn:Q; [apply app_eq_nil in Q; tauto|reflexivity].
      * reflexivity.
      * exact M.
      * intros full Hfull. cbn [decode_inner h_class h_tag h_cons].
        assert (full = r_full r).
        { rewrite Hfull, app_length. replace (length (r_full r) + length rest - length rest)%nat with (length (r_full r)) by lia.
          apply firstn_app_exact. }
        subst full. rewrite H0. destruct r; reflexivity.
    + assert (Ht : t <> GRaw) by (intros ->; discriminate). rewrite make_field_eq, Lo in Hm.
      assert (X : match make_tag t p v, make_body t p v with
            | Some tag, Some b => Some (wrap p (is_cons t) tag b)
            | _, _ => None
            end = Some b) by (destruct t; try discriminate; exact Hm). clear Hm.
      destruct (make_tag t p v) as [tag|] eqn:Etag; [|discriminate].
      destruct (make_body t p v) as [body|] eqn:Ebody; [|discriminate]. injection X as <-.
      destruct (tag_wire t p v tag (Z.of_nat (length body)) Hf Ht Etag) as [W B].
      apply read_wrapped; [exact Ht| |exact B|exact Hl|eapply wrap_matches; eassumption|].
      { destruct t; cbn [fits] in Hf; tauto. }
      intros full.
      destruct t; try contradiction; try discriminate; destruct v; cbn [fits] in Hf; destruct Hf as [(Hp & S & X) F];
        try contradiction; cbn [make_body] in Ebody; cbn [decode_inner].
      * destruct (oid_back l F) as (b & E1 & E2). rewrite Ebody in E1. injection E1 as <-. now rewrite E2.
      * injection Ebody as <-. now rewrite bits_back.
      * unfold inner_hdr. rewrite X. cbn [make_tag] in Etag. rewrite W.
        destruct (use_generalized p t) eqn:U; injection Etag as <-.
        -- change (24 =? 23) with false. cbv iota. destruct (generalized_back t F) as (b & E1 & E2).
           rewrite Ebody in E1. injection E1 as <-. now rewrite E2.
        -- change (23 =? 23) with true. cbv iota. unfold use_generalized in U.
           destruct (utc_back t F ltac:(lia)) as (b & E1 & E2).
           rewrite Ebody in E1. injection E1 as <-. now rewrite E2.
      * destruct n as [n|]; [|contradiction]. injection Ebody as <-. now rewrite bigint_back.
      * injection Ebody as <-. now rewrite int64_back.
      * now injection Ebody as <-.
      * unfold inner_hdr. destruct X as [X0 X]. rewrite X0, W. cbn [make_tag] in Etag.
        unfold put_string in Ebody. unfold str_fits in F. unfold string_tag in Etag.
        destruct X as [X|X]; rewrite X in *.
        -- change (0 =? 22) with false in *. change (0 =? 19) with false in *. change (0 =? 18) with false in *.
           change (0 =? 0) with true in *. cbv iota in *. injection Ebody as <-.
           destruct (forallb (is_printable false false) b) eqn:P.
           ++ injection Etag as <-. cbn [parse_string Z.eqb Pos.eqb]. unfold parse_string. change (19 =? 19) with true. cbv iota.
              now rewrite (printable_mono b P).
           ++ destruct (utf8_ok b) eqn:U; [|discriminate]. injection Etag as <-. unfold parse_string.
              change (12 =? 19) with false. change (12 =? 18) with false. change (12 =? 22) with false.
              change ((12 =? 20) || (12 =? 27)) with false. change (12 =? 12) with true. cbv iota. now rewrite U.
        -- change (22 =? 22) with true in *. change (22 =? 0) with false in *. cbv iota in *.
           injection Etag as <-. rewrite F in Ebody. injection Ebody as <-. unfold parse_string.
           change (22 =? 19) with false. change (22 =? 18) with false. change (22 =? 22) with true. cbv iota. now rewrite F.
      * injection Ebody as <-. now destruct b.
  - destruct rc; [destruct v; cbn [fits] in Hf; now destruct Hf|].
    destruct v as [| | | | | | | |raw l| |]; try (cbn [fits] in Hf; now destruct Hf).
    destruct raw; [|cbn [fits] in Hf; now destruct Hf].
    pose proof Hf as Hf0. apply fits_struct in Hf. destruct Hf as [Hp Hf].
    rewrite make_field_eq, Lo in Hm.
    destruct (make_tag (GStruct false fs) p (VStruct [] l)) as [tag|] eqn:Etag; [|discriminate].
    cbn [make_body] in Hm. destruct (make_fields fs l) as [body|] eqn:Eb; [|discriminate]. injection Hm as <-.
    destruct (tag_wire _ p _ tag (Z.of_nat (length body)) Hf0 ltac:(discriminate) Etag) as [W B].
    apply read_wrapped; [discriminate|exact Hp|exact B|exact Hl|eapply wrap_matches; [eassumption|discriminate|eassumption]|].
    intros full. cbn [decode_inner]. pose proof (wrap_longer p (is_cons (GStruct false fs)) tag body).
    rewrite (fields_back fs l body); [reflexivity|exact H|exact Hf|exact Eb|lia].
  - destruct v as [| | | | | | | | |l|]; try (cbn [fits] in Hf; now destruct Hf).
    pose proof Hf as Hf0. apply fits_slice in Hf. destruct Hf as [Hp [Hf Hs]].
    rewrite make_field_eq, Lo in Hm.
    destruct (make_tag (GSlice t) p (VSlice l)) as [tag|] eqn:Etag; [|discriminate].
    cbn [make_body] in Hm. destruct (all_some (map (make_field t p0) l)) as [bs|] eqn:Eb; [|discriminate].
    cbn [opt_map] in Hm.
    assert (E : (if p_set p then sort_bytes bs else bs) = bs) by (destruct (p_set p); auto).
    assert (Eb' : b = wrap p (is_cons (GSlice t)) tag (concat bs)) by (rewrite <- E at 1; now injection Hm as <-).
    subst b. clear Hm.
    destruct (tag_wire _ p _ tag (Z.of_nat (length (concat bs))) Hf0 ltac:(discriminate) Etag) as [W B].
    apply read_wrapped; [discriminate|exact Hp|exact B|exact Hl|eapply wrap_matches; [eassumption|discriminate|eassumption]|].
    intros full. cbn [decode_inner]. pose proof (wrap_longer p (is_cons (GSlice t)) tag (concat bs)).
    rewrite (many_back t l bs (length (concat bs))); [reflexivity|exact Hf|exact Eb|lia|lia|].
    intros v b rest' Hin Hmk Hlen. apply IHt; [|reflexivity|exact Hmk|exact Hlen].
    rewrite Forall_forall in Hf. now apply Hf.
Qed.

Theorem unmarshal_marshal : forall t v b, fits t p0 v -> marshal t v = Some b ->
  Z.of_nat (length b) < 2 ^ 31 -> forall rest, unmarshal t (b ++ rest) = Some (v, rest).
Proof. intros. unfold unmarshal, marshal in *. eapply field_back; eauto. Qed.
