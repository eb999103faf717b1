(** Lists that are made: two entries, and none. *)
From Coq Require Import Lia Bool String.
From Verif.Model Require Import Base Str NetIP CertRes Roa Ber Asn1 GoTime Der Tal Cms Validator ObjDer X509 CrlMake.
From Verif.Spec Require Import Addr BerSpec IpExtSpec ObjSpec SignedSpec CrlSpec X509Spec CrlMakeSpec.
From Verif.Proofs Require Import NetIPProofs StrProofs CmsProofs ObjWitness X509Proofs CrlProofs X509Witness CrlMakeProofs CrlMakeThm.

Definition m_now : gotime := mkTime 2010 1 1 0 0 0 0.
Definition m_next : gotime := mkTime 2010 1 2 0 0 0 0.
Definition m_order (l : list (Z * gotime * list extension)) : crl_order :=
  mkOrder w_name (str "R") m_now m_next l (Some 300).
Definition m_two : crl_order := m_order [(3, m_now, []); (9, m_now, [mkExt [2; 5; 29; 21] false [10; 1; 1]])].
Definition m_none : crl_order := m_order [].
(** The signature with the key of the witnesses, whose exponent is 1 *)
Definition m_sign (h : bytes) : option bytes := Some ([0; 1] ++ repeat 255 8 ++ [0] ++ X509.digest_info ++ h).
Definition m_list (o : crl_order) : bytes := odefault [] (create_crl sha0 m_sign o).

Lemma m_ext : CrlMakeSpec.extension_ok (mkExt [2; 5; 29; 21] false [10; 1; 1]).
Proof. split; [split; [right; lia|repeat constructor; lia]|reflexivity]. Qed.
Lemma m_ok : forall l, Forall (fun r => calendar (snd (fst r)) /\ Forall CrlMakeSpec.extension_ok (snd r)) l -> order_ok (m_order l).
Proof.
  intros l F. split; [|split; [reflexivity|]]. { exists []. apply (der_cons [48] [] [] [0]); [apply tag_low; [lia|discriminate|reflexivity]|constructor|]. split; [apply len_short; cbn; lia|split; reflexivity]. }
  split; [cbn; lia|]. split; [cbv; intuition congruence|]. split; [cbv; intuition congruence|]. split; [discriminate|]. split; [exact F|].
  exists 300. split; [reflexivity|]. split; [discriminate|reflexivity].
Qed.
Lemma m_two_ok : order_ok m_two.
Proof.
  apply m_ok. repeat constructor; try (cbv; congruence); exact (proj1 m_ext) || exact (proj2 m_ext).
Qed.
Lemma m_none_ok : order_ok m_none.
Proof. apply m_ok. constructor. Qed.

Lemma m_made : create_crl sha0 m_sign m_two = Some (m_list m_two) /\ Z.of_nat (List.length (m_list m_two)) < 2 ^ 31 /\ bytes_ok (m_list m_two) = true.
Proof. vm_compute. repeat split. Qed.
Lemma m_signs : signs_for sha0 m_sign (w_read w_root).
Proof.
  destruct (x509_read (c_body (w_read w_root))) as [y|] eqn:R; [|vm_compute in R; discriminate].
  exists y, n0, 1%positive. split; [exact R|]. split.
  - assert (H : option_map key_of (x509_read (c_body (w_read w_root))) = Some (Some (RSAPtr n0 1))) by (vm_compute; reflexivity).
    rewrite R in H. now injection H.
  - intros m sig H. unfold m_sign in H. injection H as <-. exists (repeat 255 8). split; [repeat constructor|]. split; [cbn; lia|].
    cbv zeta. split; [reflexivity|]. split; [vm_compute; split; [discriminate|reflexivity]|]. vm_compute. reflexivity.
Qed.

(** Each part is one value. *)
Definition m_before : list bytes :=
  [tlv 2 [1]; w_alg; w_name; tlv 23 (str "100101000000Z"); tlv 23 (str "100102000000Z")].
Definition m_after : list bytes :=
  [tlv 160 (tlv 48 (w_ext [85; 29; 35] false (tlv 48 (tlv 128 (str "R"))) ++ w_ext [85; 29; 20] false (tlv 2 [1; 44])))].
Lemma some_tlv : forall t c, (List.length c < 128)%nat -> t mod 32 <> 31 -> some_value (tlv t c).
Proof.
  intros t c L T. exists [t], c, [Z.of_nat (List.length c)]. split.
  - split; [apply len_short; lia|]. split; [reflexivity|lia].
  - split; [|split; [discriminate|reflexivity]]. unfold tlv. cbv zeta.
    destruct (Z.ltb_spec (Z.of_nat (List.length c)) 128); [reflexivity|lia].
Qed.
Theorem m_empty : exists b x, create_crl sha0 m_sign m_none = Some b /\ list_octets b x /\ xl_revoked x = [] /\
  ~ entries_absent (xl_tbs x).
Proof.
  assert (H : match crl_read (m_list m_none) with
    | Some x => xl_tbs x = tlv 48 (List.concat (m_before ++ [48; 0] :: m_after)) /\ xl_revoked x = []
    | None => False end) by (vm_compute; split; reflexivity).
  assert (C : create_crl sha0 m_sign m_none = Some (m_list m_none)) by (vm_compute; reflexivity).
  destruct (crl_read (m_list m_none)) as [x|] eqn:R; [|contradiction]. destruct H as [E V]. exists (m_list m_none), x.
  split; [exact C|]. split; [apply list_grammar; [vm_compute; reflexivity|exact R]|]. split; [exact V|].
  intros A. apply A. clear A. exists m_before, m_after. rewrite E. split; [|split].
  - exists [83]. split; [split; [apply len_short; lia|split; reflexivity]|reflexivity].
  - unfold m_before, m_after. repeat constructor; apply some_tlv; try (apply Nat.ltb_lt; reflexivity); discriminate.
  - reflexivity.
Qed.

Theorem empty_refuted : ~ (forall o b x, order_ok o -> create_crl sha0 m_sign o = Some b -> list_octets b x ->
  xl_revoked x = [] -> entries_absent (xl_tbs x)).
Proof.
  intros H. destruct m_empty as (b & x & C & L & V & N). exact (N (H _ _ _ m_none_ok C L V)).
Qed.
