(** The chains of ctrpki after several explorations with one validator. *)
From Coq Require Import List.
From Verif.Model Require Import Base Str Tal Validator NetText Explore Octo Ct CtPool.
From Verif.Spec Require Import Trust CtSpec CtPoolSpec.
From Verif.Proofs Require Import ValidatorRun CtProofs.
Import ListNotations.

Section Props.
Variable sig_ok : cert -> cert -> bool.
Variable crl_sig_ok : cert -> crl -> bool.
Variable dec_tal : bytes -> option tal.
Variable dec_cert : bytes -> option cert.
Variable dec_roa : bytes -> option roa.
Variable dec_mft : bytes -> option mft.
Variable dec_crl : bytes -> option crl.
Variable hex_sha1 : bytes -> bytes.
Notation run := (Validator.run sig_ok crl_sig_ok dec_tal dec_cert dec_roa dec_mft dec_crl hex_sha1).

Lemma chains_from : forall now v vs, explorations run v vs -> (exists ops, run ops (new_validator now) = VRet v) ->
  exists lss, ctrpki_chains vs = VRet (concat lss) /\
    Forall2 (fun p ls => let '(v, objs, order) := p in
      (forall c, valid_cert v c -> In (hexs (c_ski c), hexs (c_aki c)) order) /\
      Forall2 (fun k l => exists c, hexs (c_ski c) = fst k /\ valid_cert v c /\ follows v [] c l) order ls) vs lss.
Proof.
  intros now v vs H. induction H as [v|ops v v' objs order aki path vs R L M LA H IH]; intros (ops0 & R0).
  - exists []. split; [reflexivity|constructor].
  - assert (R1 : run (ops0 ++ ops) (new_validator now) = VRet v') by (rewrite run_app, R0; exact R).
    destruct IH as (lss & E & F); [eauto|].
    destruct (ct_follows sig_ok crl_sig_ok dec_tal dec_cert dec_roa dec_mft dec_crl hex_sha1 _ _ _ _ R1 L) as (aki' & path' & M' & X).
    rewrite M in M'. injection M' as <- <-. destruct (X order LA) as (A & ls & E1 & F1).
    exists (ls :: lss). split.
    + cbn [ctrpki_chains concat]. rewrite E1. cbn [vbind]. rewrite E. reflexivity.
    + constructor; [|exact F]. split; [exact A|]. clear - F1. induction F1 as [|k l ks ls (c & C1 & C2 & C3 & _) F1 IH]; constructor; eauto.
Qed.
Theorem chains_each : forall now vs, explorations run (new_validator now) vs ->
  exists lss, ctrpki_chains vs = VRet (concat lss) /\
    Forall2 (fun p ls => let '(v, objs, order) := p in
      (forall c, valid_cert v c -> In (hexs (c_ski c), hexs (c_aki c)) order) /\
      Forall2 (fun k l => exists c, hexs (c_ski c) = fst k /\ valid_cert v c /\ follows v [] c l) order ls) vs lss.
Proof. intros now vs H. apply (chains_from now _ _ H). exists []. reflexivity. Qed.
End Props.
