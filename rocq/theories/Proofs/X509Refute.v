(** What the checks of certificates and revocation lists let pass. *)
From Coq Require Import Lia Bool String.
From Verif.Model Require Import Base Str NetIP CertRes Roa Ber Asn1 GoTime Der Tal Cms Validator Explore ObjDer TalText TalDer FileDecoders NetText Output X509.
From Verif.Spec Require Import Addr Bits BerSpec IpExtSpec TimeSpec ContentSpec SignedSpec X509Spec ChainSpec Trust.
From Verif.Proofs Require Import NetIPProofs StrProofs BerProofs Witness ValidatorWitness ObjWitness EndWitness TimeProofs X509Bytes X509Proofs X509Thm TalDerProofs CrlProofs X509Witness ObjBytes.

Lemma option_check : forall {A} (f : A -> bool) (o : option A), match o with Some x => f x | None => false end = true ->
  exists x, o = Some x /\ f x = true.
Proof. intros A f [x|] H; [eauto|discriminate]. Qed.

Lemma coded_short : forall t c, (List.length c < 128)%nat -> coded t c (t :: Z.of_nat (List.length c) :: c).
Proof.
  intros t c L. exists [Z.of_nat (List.length c)]. split; [|reflexivity]. split; [apply len_short; lia|]. cbn [List.length]. lia.
Qed.

(** ** Unknown critical extensions *)
Lemma critical_refuted : ~ (forall d c x, bytes_ok d = true -> file_cert w_x509 d = Some c -> certificate_octets d x ->
  forall e, In e (xc_exts x) -> e_critical e = true -> known_extension (e_id e)).
Proof.
  intros H.
  destruct (option_check (fun x => existsb (fun e => e_critical e && oid_eqb (e_id e) [1; 2; 3; 4]) (xc_exts x)) (x509_read w_unknown))
    as (x & R & E); [vm_compute; reflexivity|].
  destruct (option_check (fun _ => true) (file_cert w_x509 w_unknown)) as (c & C & _); [vm_compute; reflexivity|].
  assert (O : bytes_ok w_unknown = true) by (vm_compute; reflexivity).
  apply existsb_exists in E. destruct E as (e & I & E). apply andb_true_iff in E as [E1 E2].
  specialize (H _ _ _ O C (certificate_grammar _ _ O R) e I E1). assert (Q : e_id e = [1; 2; 3; 4]) by (apply oid_eqb_eq; exact E2). clear - H Q. rewrite Q in H.
  destruct H as [[k K]|[k K]]; discriminate K.
Qed.

(** ** Path lengths *)
Definition first_basic (v : bytes) (l : list extension) : bool :=
  match l with
  | e :: l => oid_eqb (e_id e) basic_id && beq (e_value e) v && forallb (fun x => negb (oid_eqb (e_id x) basic_id)) l
  | [] => false
  end.
Lemma first_basic_last : forall v l, first_basic v l = true -> exists e, last_one basic_id l e /\ e_value e = v.
Proof.
  intros v [|e l] K; [discriminate|]. unfold first_basic in K. apply andb_true_iff in K as [K K3]. apply andb_true_iff in K as [K1 K2].
  apply beq_eq in K2. exists e. split; [|exact K2].
  exists [], l. split; [reflexivity|]. split; [apply oid_eqb_eq; exact K1|].
  intros z I Z. pose proof (proj1 (forallb_forall _ _) K3 z I) as N. cbv beta in N. rewrite Z, oid_eqb_refl in N. discriminate.
Qed.
Lemma path_zero : forall x, first_basic [48; 6; 1; 1; 255; 2; 1; 0] (xc_exts x) = true ->
  exists e, last_one basic_id (xc_exts x) e /\ path_octets (e_value e) 0.
Proof.
  intros x H. destruct (first_basic_last _ _ H) as (e & L & V). exists e. split; [exact L|]. rewrite V.
  exists [48; 6; 1; 1; 255; 2; 1; 0], [1; 1; 255], [2; 1; 0], [], [], true, [0]. split; [reflexivity|].
  split; [apply (coded_short 48 [1; 1; 255; 2; 1; 0]); cbn; lia|].
  split; [constructor; apply (coded_short 1 [255]); cbn; lia|]. split; [apply (coded_short 2 [0]); cbn; lia|].
  apply ObjBytes.int64_coded; reflexivity.
Qed.
Lemma authority_true : forall x, (xc_version x =? 2) && first_basic [48; 3; 1; 1; 255] (xc_exts x) = true -> says_authority false x.
Proof.
  intros x H. apply andb_true_iff in H as [V H]. destruct (first_basic_last _ _ H) as (e & L & W).
  exists (xc_exts x), (Some true). split; [left; split; [right; lia|reflexivity]|]. split; [|now left].
  right. exists e. split; [exact L|]. rewrite W. exists [48; 3; 1; 1; 255], [1; 1; 255], [], [], true. split; [reflexivity|].
  split; [apply (coded_short 48 [1; 1; 255]); cbn; lia|]. split; [|reflexivity]. constructor. apply (coded_short 1 [255]); cbn; lia.
Qed.

Lemma path_refuted : ~ (forall p c y x, bytes_ok (c_body p) = true -> bytes_ok (c_body c) = true -> w_signed p c = true ->
  certificate_octets (c_body p) y -> certificate_octets (c_body c) x ->
  (exists e, last_one basic_id (xc_exts y) e /\ path_octets (e_value e) 0) -> ~ says_authority false x).
Proof.
  intros H.
  assert (B : c_body (w_read w_last) = w_last) by (vm_compute; reflexivity).
  assert (B3 : c_body (w_read w_below) = w_below) by (vm_compute; reflexivity).
  assert (B2 : bytes_ok w_last = true) by (vm_compute; reflexivity).
  assert (B1 : bytes_ok w_below = true) by (vm_compute; reflexivity).
  assert (B0 : w_signed (w_read w_last) (w_read w_below) = true) by (vm_compute; reflexivity).
  destruct (option_check (fun y => first_basic [48; 6; 1; 1; 255; 2; 1; 0] (xc_exts y)) (x509_read w_last)) as (y & Ry & Ey); [vm_compute; reflexivity|].
  destruct (option_check (fun x => (xc_version x =? 2) && first_basic [48; 3; 1; 1; 255] (xc_exts x)) (x509_read w_below)) as (x & Rx & Ex); [vm_compute; reflexivity|].
  specialize (H (w_read w_last) (w_read w_below) y x). rewrite B, B3 in H.
  exact (H B2 B1 B0 (certificate_grammar _ _ B2 Ry) (certificate_grammar _ _ B1 Rx) (path_zero _ Ey) (authority_true _ Ex)).
Qed.

(** ** Revocation lists *)
Lemma no_authority : forall y, (xc_version y =? 2) && forallb (fun x => negb (oid_eqb (e_id x) basic_id)) (xc_exts y) = true ->
  ~ says_authority false y.
Proof.
  intros y H (l & b & C & S & K). apply andb_true_iff in H as [V N].
  apply counted_one in C. assert (l = xc_exts y) as -> by (rewrite C; unfold extensions; cbn [orb]; now rewrite V).
  destruct S as [[_ ->]|(e & (l1 & l2 & E & I & _) & _)].
  - destruct K as [K|[_ K]]; [discriminate|lia].
  - pose proof (proj1 (forallb_forall _ _) N e) as X. cbv beta in X. rewrite I, oid_eqb_refl in X.
    assert (Q : In e (xc_exts y)) by (rewrite E; apply in_or_app; right; now left). specialize (X Q). discriminate.
Qed.
Lemma signer_refuted : ~ (forall p l y, bytes_ok (c_body p) = true -> bytes_ok (crl_body l) = true -> w_crl_signed p l = true ->
  certificate_octets (c_body p) y -> says_authority false y).
Proof.
  intros H.
  assert (B : c_body (w_read w_plain) = w_plain) by (vm_compute; reflexivity).
  assert (B3 : crl_body (w_list_of w_crl) = w_crl) by (vm_compute; reflexivity).
  assert (B2 : bytes_ok w_plain = true) by (vm_compute; reflexivity).
  assert (B1 : bytes_ok w_crl = true) by (vm_compute; reflexivity).
  assert (B0 : w_crl_signed (w_read w_plain) (w_list_of w_crl) = true) by (vm_compute; reflexivity).
  destruct (option_check (fun x => (xc_version x =? 2) && forallb (fun x => negb (oid_eqb (e_id x) basic_id)) (xc_exts x)) (x509_read w_plain))
    as (y & Ry & Ey); [vm_compute; reflexivity|].
  specialize (H (w_read w_plain) (w_list_of w_crl) y). rewrite B, B3 in H.
  exact (no_authority _ Ey (H B2 B1 B0 (certificate_grammar _ _ B2 Ry))).
Qed.

Definition w_run_of : list op -> validator -> vres validator :=
  run w_signed w_crl_signed file_tal (file_cert w_x509) (file_roa sha0 w_x509 false) (file_mft sha0 w_x509 false) (x509_crl w_no) (fun x => x).
Lemma added_check : forall ops v0 l,
  match w_run_of ops v0 with VRet v => match add_crl w_crl_signed l v with VRet (_, (b, _)) => b | _ => false end | _ => false end = true ->
  exists v v1 a, w_run_of ops v0 = VRet v /\ add_crl w_crl_signed l v = VRet (v1, (true, a)).
Proof.
  intros ops v0 l H. destruct (w_run_of ops v0) as [v| |]; try discriminate.
  destruct (add_crl w_crl_signed l v) as [[v1 [b a]]| |] eqn:E; try discriminate. subst b. exists v, v1, a. auto.
Qed.
Lemma window_refuted : ~ (forall ops now v l v1 a x, w_run_of ops (new_validator now) = VRet v ->
  add_crl w_crl_signed l v = VRet (v1, (true, a)) -> bytes_ok (crl_body l) = true -> list_octets (crl_body l) x ->
  now <= instant (xl_next x)).
Proof.
  intros H.
  destruct (option_check (fun x => instant (xl_next x) <? e_now) (crl_read w_crl)) as (x & Rx & Ex); [vm_compute; reflexivity|].
  destruct (added_check [DoCert (w_read w_root) true] (new_validator e_now) (w_list_of w_crl)) as (v & v1 & a & R & A);
    [vm_compute; reflexivity|].
  assert (B : crl_body (w_list_of w_crl) = w_crl) by (vm_compute; reflexivity).
  assert (B0 : bytes_ok w_crl = true) by (vm_compute; reflexivity).
  specialize (H _ _ _ _ _ _ x R A). rewrite B in H. specialize (H B0 (list_grammar _ _ B0 Rx)). apply Z.ltb_lt in Ex. lia.
Qed.
