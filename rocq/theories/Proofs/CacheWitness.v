(** Concrete cases and consequences for the cache. *)
From Coq Require Import String Lia.
From Verif.Model Require Import Base Str Tal Base64 TalText Paths Validator Cache Rrdp.
From Verif.Spec Require Import B64 PathSpec RrdpSpec.
From Verif.Proofs Require Import StrProofs PathProofs RrdpProofs RrdpCrash CacheProofs CacheThm CacheEvents RrdpWitness.

Lemma twice_run :
  exists s', exec (write_ops [] cache_base (str "rsync://h/rsync://x/a.cer") (str "data")) cache0 = (s', VOk) /\
  resolve [] (get_local_path (octo_map cache_base) (str "rsync://h/rsync://x/a.cer")) = map str ["c"; "h"; "c"; "x"; "a.cer"]%string /\
  s' (resolve [] (get_local_path (octo_map cache_base) (str "rsync://h/rsync://x/a.cer"))) = None.
Proof.
  eexists. split; [match goal with |- ?x = _ => rewrite (surjective_pairing x) end; f_equal; vm_compute; reflexivity|].
  vm_compute. auto.
Qed.

Lemma dot_host : forall cwd base v data, base <> [] -> bad_path v = false ->
  domain_module (domain_of dot ++ str "m/") = Some (domain_of dot ++ str "m", domain_of dot) /\
  callback_ops cwd base (domain_of dot) (rsync_scheme ++ dot ++ [slash] ++ v) data =
    write_ops cwd base (rsync_scheme ++ v) data.
Proof.
  intros cwd base v data H Bv. split; [vm_compute; reflexivity|].
  destruct (split_last v) as (d & x & E & _). exact (proj2 (domain_dot cwd base H v data d x E Bv)).
Qed.

Lemma octo_keeps : forall cwd base domain, base <> [] -> forall e s s' v l, rooted_fs s ->
  octo_cb cwd base domain e s = (s', v) -> s l <> None -> s' l <> None.
Proof.
  intros cwd base domain Hb e s s' v l R E N. unfold octo_cb, callback_ops in E.
  destruct (negb (contains (e_path e) domain)); [injection E as <- <-; exact N|].
  destruct (write_cases cwd base Hb _ _ _ _ _ R E) as [(_ & -> & _)|(f & d & x & s1 & v1 & Ef & Es & E1 & C)]; [exact N|].
  assert (K : s1 l <> None).
  { pose proof (exec_dirs_change (prefixes (fold_left walk d (resolve cwd base))) s l) as G. rewrite E1 in G. cbn [fst] in G.
    intros Q. rewrite G in Q by congruence. discriminate. }
  destruct C as [(-> & _)|[(_ & -> & _)|(_ & _ & _ & _ & _ & _ & ->)]]; [exact K|exact K|].
  unfold fset. destruct (leq l _); [discriminate|exact K].
Qed.

Lemma plays_keeps : forall cwd base domain, base <> [] -> forall s es s' l,
  plays (octo_cb cwd base domain) s es s' -> rooted_fs s -> s l <> None -> s' l <> None.
Proof.
  intros cwd base domain Hb s es s' l. induction 1 as [|s e s1 v es s' E T P IH]; intros R N; [exact N|].
  apply IH; [eapply octo_rooted; eauto|eapply octo_keeps; eauto].
Qed.

Lemma never_removed : forall cwd base domain, base <> [] -> forall s a e b s' f,
  rooted_fs s -> plays (octo_cb cwd base domain) s (a ++ e :: b) s' ->
  e_path e = rsync_scheme ++ f -> contains (e_path e) domain = true -> bad_path f = false ->
  s' (resolve cwd (path_join base f)) <> None.
Proof.
  intros cwd base domain Hb s a e b s' f R P Ef Ed Bf. apply plays_split in P. destruct P as (s1 & P1 & P2).
  inversion P2 as [|? ? s2 v ? ? H2 H3 H5]; subst.
  assert (R1 : rooted_fs s1) by (eapply plays_rooted; eauto).
  assert (V : v <> VFatal) by (destruct H3 as [->|[-> _]]; discriminate).
  eapply plays_keeps; [exact Hb|exact H5|eapply octo_rooted; eauto|].
  destruct (octo_here cwd base domain Hb _ _ _ _ _ R1 H2 V Ef Ed Bf) as [G|G]; rewrite G; discriminate.
Qed.
