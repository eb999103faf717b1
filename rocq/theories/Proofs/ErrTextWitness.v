(** Explorations with errors, for the examples and refutations. *)
From Coq Require Import Lia String.
From Verif.Model Require Import Base NetIP CertRes Roa Str NetText Ber Tal Validator Explore ErrReport ErrText.
From Verif.Spec Require Import Resources Trust Discovery ErrReportSpec ErrTextSpec.
From Verif.Proofs Require Import Witness ValidatorWitness ExploreWitness ErrReportProofs ErrReportWitness ErrTextProofs ErrTextThm ErrTextRes.

(** The explorations of [ErrReportWitness]. *)
Definition t_explore (h : bytes) (next : Z) : vres (mgr * list (option err)) :=
  explore_errs sig_all crl_all r_tal (r_cert []) r_roa (r_mft h next) (no_dec _) (fun x => x) r_disk (fun _ => true) (fun x => x)
    (fun _ => (50, 50)) true true false Panic (fun _ => []) (fun _ _ => []) (fun _ _ => []) (fun _ => []) (fun _ => []) (fun _ => []) (fun _ => []) (fun _ => []) 20 (init_mgr 50 r_init).
Definition t_errs (h : bytes) (next : Z) : list (option err) :=
  match t_explore h next with VRet (_, es) => es | _ => [] end.
Definition t_texts (h : bytes) (next : Z) : list (go bytes) :=
  map (fun o => match o with Some e => err_text Panic e | None => Panic end) (t_errs h next).

Definition t_tag (h : bytes) (next : Z) (n : nat) (k : bytes) : option bytes :=
  tag (collected (str "t.tal") (nth n (t_errs h next) None)) k.

(** A CA that claims more than its issuer has. *)
Definition t_over := mkc (str "X") (str "A") 12 [pfx (ip4 10 1 4 0) 24; pfx (ip4 10 9 0 0) 16; IRange (ip4 11 0 0 0) (ip4 11 0 0 9)] [ASNum 15; ASRange 19 21].
Definition t_state : validator := match w_run w_ops with VRet v => v | _ => new_validator 50 end.
Definition t_over_err : option cerr :=
  match cert_err sig_all (fun _ => []) (fun _ _ => []) t_over false t_state with VRet o => o | _ => None end.

(** Expired certificates, with a given end. *)
Definition t_old (e : Z) : cert := mkCert (str "Y") (str "A") 13 0 e [] [] 1 (RSAPtr 77 3) [] [] [].

Lemma end_not_told : forall time_text nil_text, exists c c' v e e',
  c_not_after c <> c_not_after c' /\ c_not_before c = c_not_before c' /\
  cert_err sig_all time_text (fun _ _ => []) c false v = VRet (Some e) /\
  cert_err sig_all time_text (fun _ _ => []) c' false v = VRet (Some e') /\
  ce_kind e = EExpiration /\ ce_kind e' = EExpiration /\ cerr_text nil_text e = cerr_text nil_text e'.
Proof.
  intros tt nt. exists (t_old 1), (t_old 2), (new_validator 50).
  destruct (ErrTextRes.expired_text sig_all nt tt (fun _ _ => []) (t_old 1) false (new_validator 50)) as (e & A & B & C); [cbn; lia|cbn; lia|].
  destruct (ErrTextRes.expired_text sig_all nt tt (fun _ _ => []) (t_old 2) false (new_validator 50)) as (e' & A' & B' & C'); [cbn; lia|cbn; lia|].
  exists e, e'. repeat split; auto; [discriminate|]. rewrite C, C'. reflexivity.
Qed.

(** Listing of the autonomous systems for routing domain identifiers. *)
Lemma rdi_not_told : forall nt sia c rdi rdi', cert_text nt sia c rdi = cert_text nt sia c rdi'.
Proof. reflexivity. Qed.

(** An altered file and a manifest out of date are reported alike. *)
Definition errs_of (x : vres (mgr * list (option err))) : list (option err) := match x with VRet (_, es) => es | _ => [] end.
Definition first_of (l : list (option err)) : err := match l with Some e :: _ => e | _ => ErrPlain [] end.
Lemma picked : forall x, match errs_of x with Some _ :: _ => true | _ => false end = true ->
  exists s es, x = VRet (s, es) /\ In (Some (first_of (errs_of x))) es.
Proof. intros [(s & [|[e|] r])| |] H; try discriminate H. exists s, (Some e :: r). split; [reflexivity|now left]. Qed.
Lemma reason_not_told : exists e e' s s',
  (exists es, t_explore (blob 22) 100 = VRet (s, es) /\ In (Some e) es) /\
  (exists es, t_explore (blob 21) 49 = VRet (s', es) /\ In (Some e') es) /\
  type_of e = EManifest /\ type_of e' = EManifest /\
  err_text Panic e = err_text Panic e' /\ collected (str "t.tal") (Some e) = collected (str "t.tal") (Some e').
Proof.
  destruct (picked (t_explore (blob 22) 100)) as (s & es & A & B); [vm_compute; reflexivity|].
  destruct (picked (t_explore (blob 21) 49)) as (s' & es' & A' & B'); [vm_compute; reflexivity|].
  exists (first_of (errs_of (t_explore (blob 22) 100))), (first_of (errs_of (t_explore (blob 21) 49))), s, s'.
  split; [exists es; exact (conj A B)|]. split; [exists es'; exact (conj A' B')|]. clear. vm_compute. auto.
Qed.
