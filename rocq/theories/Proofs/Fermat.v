(** Fermat's little theorem, and numbers that agree modulo distinct primes. *)
From Coq Require Import Lia ZArith Znumtheory Zpow_facts List Permutation.
Import ListNotations.
Open Scope Z_scope.

Definition zprod (l : list Z) : Z := fold_right Z.mul 1 l.

Lemma zprod_app : forall l l', zprod (l ++ l') = zprod l * zprod l'.
Proof. induction l as [|x l IH]; intros l'; unfold zprod in *; cbn [app fold_right]; [lia|]. rewrite IH. lia. Qed.

Lemma zprod_perm : forall l l', Permutation l l' -> zprod l = zprod l'.
Proof. induction 1; unfold zprod in *; cbn [fold_right] in *; lia. Qed.

Lemma prime_zprod : forall p l, prime p -> (p | zprod l) -> exists x, In x l /\ (p | x).
Proof.
  intros p l P. induction l as [|x l IH]; cbn [zprod fold_right]; intros H.
  - exfalso. destruct P as [P _]. apply Z.divide_1_r_nonneg in H; lia.
  - apply prime_mult in H; [|exact P]. destruct H as [H|H]; [exists x; split; [now left|exact H]|].
    destruct (IH H) as (y & Y1 & Y2). exists y. split; [now right|exact Y2].
Qed.

Lemma nodup_map : forall (f : Z -> Z) l, NoDup l -> (forall x y, In x l -> In y l -> f x = f y -> x = y) -> NoDup (map f l).
Proof.
  intros f l N. induction N as [|x l X N IH]; intros I; cbn [map]; constructor.
  - intros H. apply in_map_iff in H. destruct H as (y & E & Y). apply X. rewrite (I x y); auto; [now left|now right].
  - apply IH. intros a b A B. apply I; now right.
Qed.

Lemma zprod_scaled : forall a p l, 0 < p ->
  zprod (map (fun i => a * i mod p) l) mod p = a ^ Z.of_nat (length l) * zprod l mod p.
Proof.
  intros a p l P. induction l as [|x l IH]; [reflexivity|].
  cbn [map zprod fold_right length]. fold (zprod (map (fun i => a * i mod p) l)). fold (zprod l).
  rewrite Z.mul_mod, IH, Z.mod_mod by lia. rewrite <- Z.mul_mod by lia.
  rewrite Nat2Z.inj_succ, Z.pow_succ_r by lia. f_equal. ring.
Qed.

Theorem fermat : forall p a, prime p -> ~ (p | a) -> (p | a ^ (p - 1) - 1).
Proof.
  intros p a P NA. assert (P1 : 1 < p) by apply P.
  set (l := map Z.of_nat (seq 1 (Z.to_nat (p - 1)))).
  assert (IL : forall x, In x l <-> 1 <= x < p).
  { intros x. unfold l. rewrite in_map_iff. split.
    - intros (n & <- & H). apply in_seq in H. lia.
    - intros H. exists (Z.to_nat x). split; [lia|]. apply in_seq. lia. }
  assert (NL : NoDup l).
  { unfold l. apply FinFun.Injective_map_NoDup; [intros x y; lia|]. apply seq_NoDup. }
  set (f := fun i => a * i mod p).
  assert (NM : forall i, 1 <= i < p -> ~ (p | i)).
  { intros i H D. apply Z.divide_pos_le in D; lia. }
  assert (PM : Permutation (map f l) l).
  { apply NoDup_Permutation_bis.
    - apply nodup_map; [exact NL|]. intros x y X Y E. apply IL in X, Y. unfold f in E.
      assert (D : (p | a * (x - y))).
      { apply Z.mod_divide; [lia|]. rewrite Z.mul_sub_distr_l, Zminus_mod, E, Z.sub_diag. reflexivity. }
      apply prime_mult in D; [|exact P]. destruct D as [D|D]; [contradiction|].
      destruct D as (k & D). assert (k = 0) by nia. lia.
    - rewrite map_length. apply le_n.
    - intros y H. apply in_map_iff in H. destruct H as (x & <- & X). apply IL in X. apply IL. unfold f.
      pose proof (Z.mod_pos_bound (a * x) p ltac:(lia)). assert (a * x mod p <> 0); [|lia].
      intros E. apply Z.mod_divide in E; [|lia]. apply prime_mult in E; [|exact P]. destruct E as [E|E]; [auto|].
      now apply NM in E. }
  assert (E := zprod_scaled a p l ltac:(lia)). fold f in E. rewrite (zprod_perm _ _ PM) in E.
  assert (LEN : Z.of_nat (length l) = p - 1) by (unfold l; rewrite map_length, seq_length; lia). rewrite LEN in E.
  assert (D : (p | (a ^ (p - 1) - 1) * zprod l)).
  { apply Z.mod_divide; [lia|]. rewrite Z.mul_sub_distr_r, Zminus_mod, <- E, Z.mul_1_l, Z.sub_diag. reflexivity. }
  apply prime_mult in D; [|exact P]. destruct D as [D|D]; [exact D|].
  apply prime_zprod in D; [|exact P]. destruct D as (x & X & D). apply IL in X. now apply NM in D.
Qed.

(** Powers to a multiple of p - 1. *)
Lemma fermat_multiple : forall p a k, prime p -> ~ (p | a) -> 0 <= k -> (p | a ^ ((p - 1) * k) - 1).
Proof.
  intros p a k P NA K. assert (P1 : 1 < p) by apply P. assert (F := fermat p a P NA).
  apply Z.mod_divide; [lia|]. rewrite Z.pow_mul_r, Zminus_mod by lia.
  assert (E : a ^ (p - 1) mod p = 1).
  { destruct F as (q & F). replace (a ^ (p - 1)) with (1 + q * p) by lia. rewrite Z.mod_add by lia. apply Z.mod_small. lia. }
  rewrite Zpower_mod, E, Z.pow_1_l by lia. rewrite (Z.mod_small 1 p), Z.mod_small by lia. reflexivity.
Qed.

(** Exponents that agree modulo p - 1. *)
Lemma pow_congruent : forall p a i j, prime p -> 0 < i -> 0 < j -> (p - 1 | i - j) -> a ^ i mod p = a ^ j mod p.
Proof.
  assert (G : forall p a i j, prime p -> 0 < j -> j <= i -> (p - 1 | i - j) -> a ^ i mod p = a ^ j mod p).
  { intros p a i j P J L (q & D). assert (P1 : 1 < p) by apply P.
    destruct (Z.eq_dec (a mod p) 0) as [E|E].
    - rewrite Zpower_mod, (Zpower_mod a j p), E by lia. rewrite !Z.pow_0_l by lia. reflexivity.
    - assert (NA : ~ (p | a)) by (intros X; apply Z.mod_divide in X; lia).
      assert (0 <= q) by nia.
      destruct (fermat_multiple p a q P NA) as (r & F); [lia|].
      replace i with ((p - 1) * q + j) by lia. rewrite Z.pow_add_r by nia.
      replace (a ^ ((p - 1) * q)) with (1 + r * p) by lia.
      replace ((1 + r * p) * a ^ j) with (a ^ j + r * a ^ j * p) by ring. apply Z.mod_add. lia. }
  intros p a i j P I J D. destruct (Z.le_ge_cases j i); [now apply G|]. symmetry. apply G; auto.
  replace (j - i) with (- (i - j)) by lia. now apply Z.divide_opp_r.
Qed.

(** Divisibility by distinct primes. *)
Lemma zprod_divides : forall l x, Forall prime l -> NoDup l -> (forall p, In p l -> (p | x)) -> (zprod l | x).
Proof.
  induction l as [|p l IH]; intros x F N D; cbn [zprod fold_right]; [apply Z.divide_1_l|]. fold (zprod l).
  apply Forall_cons_iff in F. destruct F as (P & F). apply NoDup_cons_iff in N. destruct N as (NP & N).
  assert (P1 : 1 < p) by apply P.
  destruct (IH x F N (fun q Q => D q (or_intror Q))) as (k & E).
  destruct (D p (or_introl eq_refl)) as (j & EJ).
  assert (K : (p | k)).
  { assert (X : (p | k * zprod l)) by (exists j; lia). apply prime_mult in X; [|exact P]. destruct X as [X|X]; [exact X|exfalso].
    apply prime_zprod in X; [|exact P]. destruct X as (q & Q & X). rewrite Forall_forall in F. specialize (F q Q).
    apply prime_div_prime in X; auto. now subst q. }
  destruct K as (i & ->). exists i. rewrite E. ring.
Qed.

Lemma zprod_pos : forall l, Forall prime l -> 0 < zprod l.
Proof. induction 1 as [|p l P F IH]; unfold zprod in *; cbn [fold_right]; [lia|]. destruct P. nia. Qed.

(** Numbers below the product that agree modulo each prime are equal. *)
Lemma agree_equal : forall l x y, Forall prime l -> NoDup l -> 0 <= x < zprod l -> 0 <= y < zprod l ->
  (forall p, In p l -> x mod p = y mod p) -> x = y.
Proof.
  intros l x y F N X Y E. assert (D : (zprod l | x - y)).
  { apply zprod_divides; auto. intros p I. rewrite Forall_forall in F. destruct (F p I) as (P & _).
    apply Z.mod_divide; [lia|]. rewrite Zminus_mod, (E p I), Z.sub_diag. apply Z.mod_0_l. lia. }
  destruct D as (k & D). assert (k = 0) by nia. lia.
Qed.

Lemma mod_zprod : forall l x p, Forall prime l -> In p l -> x mod zprod l mod p = x mod p.
Proof.
  intros l x p F I. assert (D : (p | zprod l)).
  { clear - I. induction l as [|q l IH]; [destruct I|]. cbn [zprod fold_right]. fold (zprod l). destruct I as [->|I].
    - apply Z.divide_factor_l.
    - apply Z.divide_mul_r. auto. }
  pose proof (zprod_pos l F). rewrite Forall_forall in F. destruct (F p I) as (P & _). destruct D as (k & D).
  rewrite (Z.div_mod x (zprod l)) at 2 by lia. rewrite D at 2.
  replace (k * p * (x / zprod l) + x mod zprod l) with (x mod zprod l + k * (x / zprod l) * p) by ring.
  now rewrite Z.mod_add by lia.
Qed.
