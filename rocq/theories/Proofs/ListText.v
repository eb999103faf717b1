(** The texts of the lists octorpki makes. *)
From Coq Require Import List ZArith Lia Bool String.
From Verif.Model Require Import Base Str NetIP NetText TalText Json Output StateFile.
From Verif.Spec Require Import JsonSpec StateSpec OutputSpec.
From Verif.Proofs Require Import StrProofs NetTextProofs OutputProofs ListProofs JsonEnc StateProofs.
Import ListNotations.
Open Scope Z_scope.

Lemma shows_ascii : forall r ip p, shows r ip p -> ascii (j_prefix r).
Proof.
  intros r ip p (A & P & ->). rewrite ipnet_text_plain by assumption. apply ascii_app.
  - apply Forall_forall. intros c I. unfold plain_text in I. destruct (Nat.eqb (length ip) 4).
    + apply in_join in I as [I|(x & X & I)]; [cbn [In] in I; lia|]. apply in_map_iff in X as (z & <- & _).
      pose proof (dec_ascii z) as D. unfold ascii in D. rewrite Forall_forall in D. exact (D c I).
    + apply text6_bytes in I; [|apply groups_ok, A]. destruct I as [I|I].
      * unfold colon in I. lia.
      * unfold is_hexd, is_digit in I. rewrite !orb_true_iff, !andb_true_iff, !Z.leb_le in I. lia.
  - constructor; [lia|apply dec_ascii].
Qed.
Theorem made_good : forall l, ascii (m_sign (l_meta l)) -> ascii (m_signdate (l_meta l)) ->
  (forall r, In r (l_data l) -> unicode (j_ta r) /\ (exists ip p, shows r ip p) /\ exists n, j_asn r = str "AS" ++ dec n) -> good_list l.
Proof.
  intros l S1 S2 H. split; [apply ascii_unicode, S1|]. split; [apply ascii_unicode, S2|]. apply Forall_forall. intros r I.
  destruct (H r I) as (T & (ip & p & S) & n & A). split; [apply ascii_unicode, (shows_ascii r ip p S)|]. split; [|exact T].
  rewrite A. apply ascii_unicode. apply ascii_app; [|apply dec_ascii]. repeat constructor; cbn; lia.
Qed.
