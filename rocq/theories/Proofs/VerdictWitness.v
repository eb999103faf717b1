(** The repository of [X509Witness], as its consumer reads it. *)
From Coq Require Import List ZArith Lia Bool String.
From Verif.Model Require Import Base Str NetIP CertRes Roa Ber Asn1 GoTime Der Tal Validator Explore ObjDer TalText TalDer FileDecoders NetText Output StateFile X509.
From Verif.Spec Require Import Addr Resources Trust Discovery OutputSpec EndSpec StateSpec VerdictSpec.
From Verif.Proofs Require Import StrProofs Witness ObjWitness ExploreWitness EndWitness EndThm X509Witness.
Import ListNotations.
Open Scope Z_scope.

Definition ips10 (raw : bytes) : bool :=
  match ber2der raw with
  | BOk d => match file_cert w_x509 d with
             | Some c => match c_ips c with
                         | [INet (Some n)] => beq (nip n) [10; 0; 0; 0] && beq (nmask n) [255; 0; 0; 0]
                         | _ => false
                         end
             | None => true
             end
  | _ => true
  end.
Lemma w_ips10 : forallb ips10 (map snd w_files) = true.
Proof. vm_compute. reflexivity. Qed.
Lemma w_anchors : plain_anchors w_disk (file_cert w_x509) w_expl.
Proof.
  intros f c _ FT _ (raw & d & (H & B) & DC) _. unfold is_tal in B. rewrite FT in B. apply table_in in H.
  pose proof (proj1 (forallb_forall _ _) w_ips10 raw H) as X. unfold ips10 in X. rewrite B, DC in X.
  destruct (c_ips c) as [|[[n|]|?|?] [|? ?]]; try discriminate X. apply andb_true_iff in X as [X1 X2]. apply beq_eq in X1, X2.
  constructor; [|constructor]. left. destruct n as [ip m]. cbn [nip nmask] in X1, X2. subst.
  change (mkNet [10; 0; 0; 0] [255; 0; 0; 0]) with (mkNet (ip4 10 0 0 0) (cidr_mask 8 32)).
  eexists _, _, _. apply den_prefix; [plain|unfold addr_bits; cbn; lia].
Qed.

Lemma unsigned : forall filt names paths tals now dur L, generate_list filt names paths tals now dur = Ret L ->
  m_sign (l_meta L) = [] /\ m_signdate (l_meta L) = [].
Proof.
  intros filt names paths tals now dur L H. unfold generate_list, finish_list in H.
  destruct (export_tals names paths 0 tals) as [data|]; [|discriminate H]. cbn [gbind] in H.
  destruct (if filt then _ else _) as [d|]; [|discriminate H]. cbn [gbind] in H. injection H as <-. split; reflexivity.
Qed.
Lemma w_bytes : forall L, generate_list true [str "ta"] [str "t.tal"] [w_valid_roas] 100 60 = Ret L ->
  forall r, l_data L = [r] -> j_prefix r = str "10.1.0.0/16" -> j_asn r = str "AS65000" -> byte_list L.
Proof.
  intros L G r D P A. destruct (unsigned _ _ _ _ _ _ _ G) as (S1 & S2). split; [rewrite S1; reflexivity|]. split; [rewrite S2; reflexivity|].
  rewrite D. constructor; [|constructor]. rewrite P, A. split; [reflexivity|]. split; [reflexivity|].
  assert (I : In r (l_data L)) by (rewrite D; left; reflexivity).
  destruct (exported_octets sha0 (fun x => eq_refl) _ _ _ _ _ _ _ _ _ _ _ _ w_cache _ _ _ _ _ _ _ _ w_all G r I)
    as (j & q & f & raw & d & asn & entries & e & c & NQ & _ & _ & _ & _ & _ & -> & _). cbn [j_ta].
  destruct j as [|[|j]]; [reflexivity|discriminate NQ|discriminate NQ].
Qed.
