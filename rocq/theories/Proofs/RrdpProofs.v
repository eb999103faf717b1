(** FetchRRDP delivers what the specification says. *)
From Coq Require Import Lia.
From Verif.Model Require Import Base Str Base64 Paths Cache Rrdp.
From Verif.Spec Require Import B64 RrdpSpec.
From Verif.Proofs Require Import StrProofs Base64Proofs.

Lemma wrap64_id : forall x, int64 x -> wrap64 x = x.
Proof. intros x H. unfold wrap64, int64 in *. rewrite Z.mod_small; lia. Qed.

Lemma wrap64_int64 : forall x, int64 (wrap64 x).
Proof.
  intros x. unfold wrap64, int64.
  pose proof (Z.mod_pos_bound (x + 2 ^ 63) (2 ^ 64) ltac:(lia)). lia.
Qed.

Lemma wrap64_add : forall x i, wrap64 (wrap64 x + i) = wrap64 (x + i).
Proof.
  intros. unfold wrap64.
  replace ((x + 2 ^ 63) mod 2 ^ 64 - 2 ^ 63 + i + 2 ^ 63) with ((x + 2 ^ 63) mod 2 ^ 64 + i) by lia.
  rewrite Zplus_mod_idemp_l. f_equal. f_equal. lia.
Qed.

Lemma wrap64_inj : forall x y, wrap64 x = wrap64 y -> - 2 ^ 64 < x - y < 2 ^ 64 -> x = y.
Proof.
  intros x y H B. unfold wrap64 in H.
  assert (E : (x + 2 ^ 63) mod 2 ^ 64 = (y + 2 ^ 63) mod 2 ^ 64) by lia.
  pose proof (Z_div_mod_eq_full (x + 2 ^ 63) (2 ^ 64)).
  pose proof (Z_div_mod_eq_full (y + 2 ^ 63) (2 ^ 64)).
  set (a := (x + 2 ^ 63) / 2 ^ 64) in *. set (b := (y + 2 ^ 63) / 2 ^ 64) in *.
  assert (a - b = 0) by nia. assert (a = b) by lia. nia.
Qed.

Lemma delta_at_none : forall l k, delta_at l k = None <-> forall u, ~ In (k, u) l.
Proof.
  induction l as [|[k' u'] r IH]; intros k; cbn [delta_at].
  - split; auto.
  - destruct (delta_at r k) eqn:E.
    + split; [discriminate|]. intros H. exfalso.
      assert (delta_at r k = None) by (apply IH; intros u Hu; apply (H u); right; exact Hu). congruence.
    + destruct (Z.eqb_spec k' k).
      * subst k'. split; [discriminate|]. intros H. exfalso. apply (H u'). left. reflexivity.
      * split; auto. intros _ u [Hu|Hu]; [congruence|]. apply IH in Hu; auto.
Qed.

Lemma delta_at_some : forall n k u, delta_at (n_deltas n) k = Some u -> announces n k u.
Proof.
  intros n k. unfold announces. induction (n_deltas n) as [|[k' u'] r IH]; intros u; cbn [delta_at]; [discriminate|].
  destruct (delta_at r k) eqn:E.
  - intros H. injection H as <-. destruct (IH b eq_refl) as (x & y & Hx & Hy).
    exists ((k', u') :: x), y. split; [rewrite Hx; reflexivity|exact Hy].
  - destruct (Z.eqb_spec k' k); [|discriminate]. intros H. injection H as <-. subst k'.
    exists [], r. split; [reflexivity|]. apply delta_at_none. exact E.
Qed.

Lemma delta_at_has : forall n k, has_delta n k <-> delta_at (n_deltas n) k <> None.
Proof.
  intros n k. unfold has_delta. split.
  - intros (u & Hu) H. rewrite delta_at_none in H. exact (H u Hu).
  - intros H. destruct (delta_at (n_deltas n) k) as [u|] eqn:E; [|congruence].
    apply delta_at_some in E. destruct E as (a & b & E & _). exists u. rewrite E. apply in_elt.
Qed.

(** The search for missing deltas *)

Lemma missing_true : forall fuel ds serial cur, int64 serial -> cur < 2 ^ 63 - 1 ->
  missing fuel ds serial cur = Some true -> exists k, serial <= k <= cur /\ delta_at ds k = None.
Proof.
  induction fuel as [|f IH]; intros ds serial cur Hs Hc H; cbn [missing] in H; [discriminate|].
  destruct (Z.leb_spec serial cur); [|discriminate].
  destruct (delta_at ds serial) eqn:E; [|exists serial; split; [lia|exact E]].
  unfold int64 in Hs. rewrite wrap64_id in H by (unfold int64; lia).
  apply IH in H; [|unfold int64; lia|exact Hc]. destruct H as (k & Hk & Hn). exists k. split; [lia|exact Hn].
Qed.

Lemma missing_false : forall fuel ds serial cur, int64 serial -> int64 cur ->
  missing fuel ds serial cur = Some false ->
  (cur < 2 ^ 63 - 1) /\ forall k, serial <= k <= cur -> delta_at ds k <> None.
Proof.
  intros fuel ds serial cur Hs Hc H.
  assert (B : cur < 2 ^ 63 - 1).
  { destruct (Z_lt_dec cur (2 ^ 63 - 1)) as [|G]; [assumption|exfalso].
    assert (cur = 2 ^ 63 - 1) by (unfold int64 in Hc; lia). subst cur. clear G Hc.
    revert serial Hs H. induction fuel as [|f IH]; intros serial Hs H; cbn [missing] in H; [discriminate|].
    destruct (Z.leb_spec serial (2 ^ 63 - 1)); [|unfold int64 in Hs; lia].
    destruct (delta_at ds serial); [|discriminate].
    exact (IH _ (wrap64_int64 _) H). }
  split; [exact B|].
  revert serial Hs H. induction fuel as [|f IH]; intros serial Hs H k Hk; cbn [missing] in H; [discriminate|].
  destruct (Z.leb_spec serial cur); [|lia].
  destruct (delta_at ds serial) eqn:E; [|discriminate].
  unfold int64 in Hs. rewrite wrap64_id in H by (unfold int64; lia).
  destruct (Z.eq_dec k serial) as [->|N]; [congruence|].
  apply (IH (serial + 1) ltac:(unfold int64; lia) H). lia.
Qed.

Lemma missing_none : forall fuel ds serial cur, missing fuel ds serial cur = None ->
  forall i, (i < fuel)%nat -> int64 serial -> delta_at ds (wrap64 (serial + Z.of_nat i)) <> None.
Proof.
  induction fuel as [|f IH]; intros ds serial cur H i Hi Hs; [lia|]. cbn [missing] in H.
  destruct (serial <=? cur); [|discriminate].
  destruct (delta_at ds serial) eqn:E; [|discriminate].
  destruct i as [|i].
  - rewrite Z.add_0_r, wrap64_id by exact Hs. congruence.
  - specialize (IH ds _ cur H i ltac:(lia) (wrap64_int64 _)). rewrite wrap64_add in IH.
    replace (serial + Z.of_nat (S i)) with (serial + 1 + Z.of_nat i) by lia. exact IH.
Qed.

Lemma present_count : forall ds (f : nat -> Z) m,
  (forall i j, (i < m)%nat -> (j < m)%nat -> f i = f j -> i = j) ->
  (forall i, (i < m)%nat -> delta_at ds (f i) <> None) -> (m <= length ds)%nat.
Proof.
  intros ds f m Hi Hp.
  assert (N : NoDup (map f (seq 0 m))).
  { assert (G : forall b a, (a + b <= m)%nat -> NoDup (map f (seq a b))).
    { induction b as [|b IH]; intros a Hab; cbn [seq map]; constructor.
      - intros Hin. apply in_map_iff in Hin. destruct Hin as (j & Hj & Hjs). apply in_seq in Hjs.
        assert (j = a) by (apply Hi; [lia|lia|exact Hj]). lia.
      - apply IH. lia. }
    apply G. lia. }
  pose proof (NoDup_incl_length N (l' := map fst ds)) as L.
  rewrite !map_length, seq_length in L. apply L.
  intros k Hk. apply in_map_iff in Hk. destruct Hk as (i & <- & Hi'). apply in_seq in Hi'.
  specialize (Hp i ltac:(lia)). rewrite delta_at_none in Hp.
  destruct (in_dec Z.eq_dec (f i) (map fst ds)) as [|G]; [assumption|exfalso].
  apply Hp. intros u Hu. apply G. apply in_map_iff. exists (f i, u). auto.
Qed.

Lemma missing_total : forall ds serial cur, int64 serial -> Z.of_nat (length ds) < 2 ^ 62 ->
  missing (S (S (length ds))) ds serial cur <> None.
Proof.
  intros ds serial cur Hs Hl H.
  pose proof (missing_none _ _ _ _ H) as P.
  assert ((S (S (length ds)) <= length ds)%nat); [|lia].
  apply (present_count ds (fun i => wrap64 (serial + Z.of_nat i))).
  - intros i j Hi Hj E. apply wrap64_inj in E; lia.
  - intros i Hi. apply P; auto.
Qed.

(** The number of deltas when none is missing *)
Lemma present_range : forall ds last cur, (forall k, last <= k <= cur -> delta_at ds k <> None) ->
  cur - last < Z.of_nat (length ds) \/ cur < last.
Proof.
  intros ds last cur H. destruct (Z_lt_dec cur last); [right; assumption|left].
  assert ((Z.to_nat (cur - last + 1) <= length ds)%nat); [|lia].
  apply (present_count ds (fun i => last + Z.of_nat i)).
  - intros i j _ _ E. lia.
  - intros i Hi. apply H. lia.
Qed.

Section Fetch.
Variable St : Type.
Variable cb : event -> St -> St * verdict.
Variable snap : bytes -> option doc.
Variable delta : Z -> bytes -> option doc.
Notation deliver := (deliver St cb).
Notation deliver_doc := (deliver_doc St cb).
Notation deltas_loop := (deltas_loop St cb delta).
Notation fetch_rrdp := (fetch_rrdp St cb snap delta).

Lemma plays_app : forall s s1 s2 a b, plays cb s a s1 -> plays cb s1 b s2 -> plays cb s (a ++ b) s2.
Proof. intros s s1 s2 a b H. induction H; intros G; cbn [app]; [exact G|]. econstructor; eauto. Qed.

Lemma deliver_ok : forall mk ign l s s',
  (ign = true -> forall u d, e_withdraw (mk u d) = true /\ e_snapshot (mk u d) = false) ->
  deliver mk ign l s = (s', VOk) ->
  exists es, Forall2 (elem_event mk) l es /\ plays cb s es s'.
Proof.
  intros mk ign l. induction l as [|[u t] r IH]; intros s s' Hm H; cbn [Rrdp.deliver] in H.
  - injection H as <-. exists []. split; [constructor|constructor].
  - destruct (decode_rrdp_base64 t) as [d|] eqn:D; [|discriminate].
    destruct (cb (mk u d) s) as [s1 v] eqn:C.
    assert (Hstep : deliver mk ign r s1 = (s', VOk) /\ tolerated (mk u d) v).
    { destruct v; [split; [exact H|left; reflexivity]| |discriminate].
      destruct ign; [|discriminate]. split; [exact H|right]. auto. }
    destruct Hstep as [Hr Ht]. destruct (IH s1 s' Hm Hr) as (es & F & A).
    exists (mk u d :: es). split.
    + constructor; [|exact F]. exists d. split; [apply decode_rrdp_base64_exact; exact D|reflexivity].
    + econstructor; eauto.
Qed.

Lemma deliver_doc_ok : forall mk ign d s s',
  (ign = true -> forall u x, e_withdraw (mk true u x) = true /\ e_snapshot (mk true u x) = false) ->
  deliver_doc mk ign d s = (s', VOk) ->
  exists es, doc_events mk d es /\ plays cb s es s'.
Proof.
  intros mk ign d s s' Hm H. unfold Rrdp.deliver_doc in H.
  destruct (deliver (mk false) false (fst d) s) as [s1 v] eqn:E. destruct v; [|discriminate|discriminate].
  apply deliver_ok in E; [|discriminate]. destruct E as (p & Fp & Ap).
  apply deliver_ok in H; [|exact Hm]. destruct H as (w & Fw & Aw).
  exists (p ++ w). split; [exists p, w; auto|]. eapply plays_app; eauto.
Qed.

Lemma serials_nil : forall last cur, cur <= last -> serials last cur = [].
Proof. intros. unfold serials. replace (Z.to_nat (cur - last)) with O by lia. reflexivity. Qed.

Lemma serials_cons : forall last cur, last < cur -> serials last cur = (last + 1) :: serials (last + 1) cur.
Proof.
  intros last cur H. unfold serials.
  replace (Z.to_nat (cur - last)) with (S (Z.to_nat (cur - (last + 1)))) by lia.
  cbn [seq map]. f_equal; [lia|]. rewrite <- seq_shift, map_map. apply map_ext. intros i. lia.
Qed.

Lemma deltas_loop_ok : forall fuel n last k s s' a b,
  int64 (n_serial n) -> n_serial n < 2 ^ 63 - 1 -> int64 last -> int64 (n_serial n - last) ->
  last <= k <= n_serial n -> 
  deltas_loop fuel n last (k + 1) k s = (s', Done a b) ->
  a = n_session n /\ b = n_serial n /\
  exists es, update_events n delta k es /\ plays cb s es s'.
Proof.
  induction fuel as [|f IH]; intros n last k s s' a b Hc Hm Hl Hd Hk H; cbn [Rrdp.deltas_loop] in H; [discriminate|].
  rewrite (wrap64_id (n_serial n - last)) in H by exact Hd.
  destruct (Z.leb_spec (k + 1) (n_serial n)) as [L|L].
  - destruct (Z.ltb_spec 0 (n_serial n - last)); [|lia]. cbn [andb] in H.
    destruct (delta_at (n_deltas n) (k + 1)) as [u|] eqn:U; [|discriminate].
    destruct (delta (k + 1) u) as [d|] eqn:D; [|discriminate].
    match type of H with context [deliver_doc ?m ?i d s] => destruct (deliver_doc m i d s) as [s1 v] eqn:E end.
    destruct v; [|discriminate|discriminate].
    unfold int64 in Hl, Hc, Hd. rewrite wrap64_id in H by (unfold int64; lia).
    apply IH in H; [|unfold int64; lia..|lia]. destruct H as (-> & -> & es & (ess & F & ->) & A).
    apply deliver_doc_ok in E; [|intros _ x y; cbn [e_withdraw e_snapshot]; auto].
    destruct E as (es1 & De & A1).
    split; [reflexivity|split; [reflexivity|]]. exists (es1 ++ concat ess). split.
    + exists (es1 :: ess). split; [|reflexivity]. rewrite serials_cons by lia. constructor; [|exact F].
      exists u, d. split; [apply delta_at_some; exact U|split; [exact D|exact De]].
    + eapply plays_app; eauto.
  - cbn [andb] in H. injection H as <- <- <-. assert (k = n_serial n) by lia. subst k.
    split; [reflexivity|split; [reflexivity|]]. exists []. split; [|constructor].
    exists []. rewrite serials_nil by lia. split; [constructor|reflexivity].
Qed.

Lemma snapshot_run_ok : forall n s s' a b, snapshot_run St cb snap n s = (s', Done a b) ->
  a = n_session n /\ b = n_serial n /\ exists es, snapshot_events n snap es /\ plays cb s es s'.
Proof.
  intros n s s' a b H. unfold snapshot_run in H.
  destruct (snap (n_snapshot n)) as [d|] eqn:D; [|discriminate].
  match type of H with context [deliver_doc ?m ?i d s] => destruct (deliver_doc m i d s) as [s1 v] eqn:E end.
  destruct v; [|discriminate|discriminate]. injection H as <- <- <-.
  apply deliver_doc_ok in E; [|discriminate]. destruct E as (es & De & A).
  split; [reflexivity|split; [reflexivity|]]. exists es. split; [exists d; auto|exact A].
Qed.

Lemma session_test : forall a b, negb (beq a b) = true <-> a <> b.
Proof. intros. rewrite negb_true_iff. apply beq_neq. Qed.

(** Which way the update goes *)
Lemma fetch_cases : forall n ls last s, plain_notif n -> plain_serial last ->
  (fetch_rrdp (Some n) ls last s = snapshot_run St cb snap n s /\
     (needs_snapshot n ls last \/ n_serial n = 2 ^ 63 - 1)) \/
  (~ needs_snapshot n ls last /\
     (n_serial n < last /\ fetch_rrdp (Some n) ls last s = (s, Done (n_session n) last) \/
      last <= n_serial n < 2 ^ 63 - 1 /\ int64 (n_serial n - last) /\
      fetch_rrdp (Some n) ls last s =
        deltas_loop (S (S (length (n_deltas n)))) n last (last + 1) last s)).
Proof.
  intros n ls last s (Hc & Hk & Hn) Hs. cbn [Rrdp.fetch_rrdp].
  assert (Hl : int64 last) by (unfold plain_serial, int64 in *; lia).
  destruct (missing (S (S (length (n_deltas n)))) (n_deltas n) last (n_serial n)) as [m|] eqn:M;
    [|exfalso; exact (missing_total _ _ _ Hl Hn M)].
  destruct (Z.eqb_spec last 0) as [E|E]; cbn [orb]; [left; split; [reflexivity|left; left; exact E]|].
  destruct (negb (beq ls (n_session n))) eqn:S; cbn [orb];
    [left; split; [reflexivity|left; right; left; apply session_test; exact S]|].
  destruct m.
  - left. split; [reflexivity|]. destruct (Z_lt_dec (n_serial n) (2 ^ 63 - 1)).
    + left. right. right. apply missing_true in M; [|exact Hl|assumption].
      destruct M as (k & Hk' & Hz). exists k. split; [exact Hk'|]. rewrite delta_at_has. auto.
    + right. unfold int64 in Hc. lia.
  - right. apply missing_false in M; [|assumption|assumption]. destruct M as (B & P). split.
    + intros [G|[G|(k & Gk & Gn)]]; [contradiction| |].
      * apply session_test in G. congruence.
      * apply Gn. rewrite delta_at_has. apply P. exact Gk.
    + destruct (Z_lt_dec (n_serial n) last) as [R|R].
      * left. split; [exact R|]. cbn [Rrdp.deltas_loop].
        rewrite (wrap64_id (last + 1)) by (unfold plain_serial, int64 in *; lia).
        destruct (Z.leb_spec (last + 1) (n_serial n)); [lia|]. reflexivity.
      * right. split; [lia|]. split.
        { destruct (present_range (n_deltas n) last (n_serial n)) as [K|K]; [intros k Hk'; apply P; exact Hk'|unfold int64; lia|unfold int64 in *; lia]. }
        rewrite (wrap64_id (last + 1)) by (unfold int64 in *; lia). reflexivity.
Qed.

Lemma fetch_done : forall n ls last s s' a b, plain_notif n -> plain_serial last ->
  fetch_rrdp (Some n) ls last s = (s', Done a b) ->
  exists es, plays cb s es s' /\ a = n_session n /\
    ((snapshot_events n snap es /\ b = n_serial n /\ (needs_snapshot n ls last \/ n_serial n = 2 ^ 63 - 1)) \/
     (~ needs_snapshot n ls last /\ update_events n delta last es /\ b = Z.max last (n_serial n))).
Proof.
  intros n ls last s s' a b Hn Hl H.
  destruct (fetch_cases n ls last s Hn Hl) as [(E & C)|(C & [(R & E)|(R & Hd & E)])]; rewrite E in H; clear E.
  - apply snapshot_run_ok in H. destruct H as (-> & -> & es & S & A). exists es.
    split; [exact A|split; [reflexivity|left; auto]].
  - injection H as <- <- <-. exists []. split; [constructor|split; [reflexivity|right]].
    split; [exact C|split; [|lia]]. exists []. rewrite serials_nil by lia. split; [constructor|reflexivity].
  - apply deltas_loop_ok in H; try assumption; [|apply Hn|lia|unfold plain_serial, int64 in *; lia|lia].
    destruct H as (-> & -> & es & U & A). exists es. split; [exact A|split; [reflexivity|right]].
    split; [exact C|split; [exact U|lia]].
Qed.

Lemma deltas_loop_fuel : forall fuel n last k s, int64 (n_serial n) -> n_serial n < 2 ^ 63 - 1 ->
  int64 last -> last <= k <= n_serial n -> n_serial n - k < Z.of_nat fuel ->
  snd (deltas_loop fuel n last (k + 1) k s) <> OutOfFuel.
Proof.
  induction fuel as [|f IH]; intros n last k s Hc Hm Hl Hk Hf; [lia|]. cbn [Rrdp.deltas_loop].
  destruct (Z.leb_spec (k + 1) (n_serial n)); cbn [andb]; [|discriminate].
  destruct (0 <? wrap64 (n_serial n - last)); [|discriminate].
  destruct (delta_at (n_deltas n) (k + 1)) as [u|]; [|discriminate].
  destruct (delta (k + 1) u) as [d|]; [|discriminate].
  match goal with |- context [deliver_doc ?m ?i d s] => destruct (deliver_doc m i d s) as [s1 v] end.
  destruct v; [|discriminate|discriminate].
  unfold int64 in *. rewrite wrap64_id by (unfold int64; lia). apply IH; unfold int64; lia.
Qed.

Lemma snapshot_run_fuel : forall n s, snd (snapshot_run St cb snap n s) <> OutOfFuel.
Proof.
  intros. unfold snapshot_run. destruct (snap (n_snapshot n)); [|discriminate].
  match goal with |- context [deliver_doc ?m ?i ?d s] => destruct (deliver_doc m i d s) as [s1 v] end.
  destruct v; discriminate.
Qed.

Lemma fetch_total : forall root ls last s,
  (forall n, root = Some n -> plain_notif n) -> plain_serial last ->
  snd (fetch_rrdp root ls last s) <> OutOfFuel.
Proof.
  intros [n|] ls last s Hn Hl; [|discriminate]. pose proof (Hn n eq_refl) as Hp.
  destruct (fetch_cases n ls last s Hp Hl) as [(E & C)|(C & [(R & E)|(R & Hd & E)])]; rewrite E.
  - apply snapshot_run_fuel.
  - discriminate.
  - apply deltas_loop_fuel; [apply Hp|lia|unfold plain_serial, int64 in *; lia|lia|].
    assert (P : forall k, last <= k <= n_serial n -> delta_at (n_deltas n) k <> None).
    { intros k Hk. apply delta_at_has. destruct (delta_at (n_deltas n) k) eqn:Ek.
      - apply delta_at_has. congruence.
      - exfalso. apply C. right. right. exists k. split; [exact Hk|]. rewrite delta_at_has. congruence. }
    destruct (present_range _ _ _ P); lia.
Qed.
End Fetch.
