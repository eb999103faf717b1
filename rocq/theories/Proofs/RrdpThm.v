(** Interrupted updates of the cache. *)
From Coq Require Import Lia.
From Verif.Model Require Import Base Str Base64 Paths Cache Rrdp.
From Verif.Spec Require Import RrdpSpec.
From Verif.Proofs Require Import StrProofs RrdpProofs RrdpCrash.

Lemma step_dir_no_err : forall l s, snd (step (ODir l) s) <> VErr.
Proof. intros. cbn [step]. destruct (s l) as [[|]|]; discriminate. Qed.

Lemma step_crash_dir_no_err : forall g l x, snd (step_crash g (ODir l) x) <> VErr.
Proof.
  intros g l [s [|k]]; unfold step_crash; cbn [snd fst]; [discriminate|].
  pose proof (step_dir_no_err l s). destruct (step (ODir l) s). exact H.
Qed.

Section Octo.
Variable cwd : loc.
Variables base domain : bytes.
Variable snap : bytes -> option doc.
Variable delta : Z -> bytes -> option doc.
Notation ops := (callback_ops cwd base domain).
Notation fetch := (fetch_rrdp fs (octo_cb cwd base domain) snap delta).
Notation fetch_killed g := (fetch_rrdp (fs * nat) (crash_cb g cwd base domain) snap delta).

Lemma octo_tame : forall u d, exists ps tl, ops u d = map ODir ps ++ tl /\ (length tl <= 1)%nat.
Proof.
  intros u d. unfold callback_ops. destruct (negb (contains u domain)); [exists [], []; cbn; auto|].
  unfold write_ops. destruct (extract_folders u) as [x|]; [|exists [], [OFatal]; cbn; auto].
  destruct (extract_file u) as [f|]; [|exists [], [OFatal]; cbn; auto].
  exists (prefixes (resolve cwd (path_join base x))).
  destruct (Validator.bad_path f); eexists; (split; [reflexivity|cbn; auto]).
Qed.

Lemma fetch_is_plan : forall root ls last s,
  fetch root ls last s =
  finish (texec fs step (fst (plan ops snap delta root ls last)) s) (snd (plan ops snap delta root ls last)).
Proof. intros. apply (fetch_plan ops snap delta fs step step_dir_no_err octo_tame). Qed.

Lemma killed_is_plan : forall g root ls last x,
  fetch_killed g root ls last x =
  finish (texec (fs * nat) (step_crash g) (fst (plan ops snap delta root ls last)) x) (snd (plan ops snap delta root ls last)).
Proof. intros. apply (fetch_plan ops snap delta (fs * nat) (step_crash g) (step_crash_dir_no_err g) octo_tame). Qed.

Lemma finish_fst : forall St (x : St * verdict) o, fst (finish x o) = fst x.
Proof. intros St [s v] o. destruct v; reflexivity. Qed.

Notation interrupted := (interrupted cwd base domain snap delta).

Lemma interrupted_between : forall root ls last s s' q, interrupted root ls last s s' ->
  between (fst (plan ops snap delta root ls last) ++ q) s s'.
Proof.
  intros root ls last s s' q H. induction H as [|s1 g k H IH]; [apply between_refl|].
  rewrite killed_is_plan, finish_fst. apply crash_between. exact IH.
Qed.

Theorem retry : forall root ls last s s', interrupted root ls last s s' ->
  snd (fetch root ls last s') = snd (fetch root ls last s) /\
  forall l, fst (fetch root ls last s') l = fst (fetch root ls last s) l.
Proof.
  intros root ls last s s' H. apply interrupted_between with (q := []) in H. rewrite app_nil_r in H.
  apply run_between in H. destruct H as (V & F). rewrite !fetch_is_plan, !finish_fst. split; [|exact F].
  unfold finish. rewrite V. destruct (snd (texec fs step _ s)); reflexivity.
Qed.

(** The server has moved on meanwhile. *)
Fixpoint plan_serials (n : notif) (ks : list Z) : list item * bool :=
  match ks with
  | [] => ([], true)
  | k :: r =>
      match delta_at (n_deltas n) k with
      | None => ([], false)
      | Some u =>
          match delta k u with
          | None => ([], false)
          | Some d => let (p, o) := plan_serials n r in (plan_doc ops true d ++ p, o)
          end
      end
  end.

Lemma plan_serials_app : forall n a b, snd (plan_serials n a) = true ->
  plan_serials n (a ++ b) = (fst (plan_serials n a) ++ fst (plan_serials n b), snd (plan_serials n b)).
Proof.
  induction a as [|k a IH]; intros b; cbn [plan_serials app]; [intros; destruct (plan_serials n b); reflexivity|].
  destruct (delta_at (n_deltas n) k) as [u|]; [|discriminate]. destruct (delta k u) as [d|]; [|discriminate].
  intros H. specialize (IH b). destruct (plan_serials n a) as [p o]. cbn [snd fst] in *.
  rewrite (IH H). cbn [fst snd]. rewrite app_assoc. reflexivity.
Qed.

Lemma plan_serials_ext : forall n n' ks, (forall k, In k ks -> delta_at (n_deltas n) k = delta_at (n_deltas n') k) ->
  plan_serials n ks = plan_serials n' ks.
Proof.
  induction ks as [|k r IH]; intros H; cbn [plan_serials]; [reflexivity|].
  rewrite (H k) by (left; reflexivity). rewrite IH by (intros; apply H; right; assumption). reflexivity.
Qed.

Lemma plan_deltas_serials : forall fuel n last k,
  int64 (n_serial n) -> n_serial n < 2 ^ 63 - 1 -> int64 last -> int64 (n_serial n - last) ->
  last <= k <= n_serial n -> n_serial n - k < Z.of_nat fuel ->
  plan_deltas ops delta fuel n last (k + 1) k =
  (fst (plan_serials n (serials k (n_serial n))),
   if snd (plan_serials n (serials k (n_serial n))) then Done (n_session n) (n_serial n) else Failed).
Proof.
  induction fuel as [|f IH]; intros n last k Hc Hm Hl Hd Hk Hf; [lia|]. cbn [plan_deltas].
  rewrite (wrap64_id (n_serial n - last)) by exact Hd.
  destruct (Z.leb_spec (k + 1) (n_serial n)) as [L|L].
  - destruct (Z.ltb_spec 0 (n_serial n - last)); [|lia]. cbn [andb].
    rewrite serials_cons by lia. cbn [plan_serials].
    destruct (delta_at (n_deltas n) (k + 1)) as [u|]; [|reflexivity].
    destruct (delta (k + 1) u) as [d|]; [|reflexivity].
    unfold int64 in *. rewrite wrap64_id by (unfold int64; lia).
    rewrite IH by (unfold int64; lia).
    destruct (plan_serials n (serials (k + 1) (n_serial n))) as [p o]. reflexivity.
  - cbn [andb]. rewrite serials_nil by lia. cbn [plan_serials fst snd]. f_equal. f_equal. lia.
Qed.

Lemma plan_update : forall n ls last, plain_notif n -> int64 last -> int64 (n_serial n - last) ->
  n_serial n < 2 ^ 63 - 1 -> last <= n_serial n -> ~ needs_snapshot n ls last ->
  plan ops snap delta (Some n) ls last =
  (fst (plan_serials n (serials last (n_serial n))),
   if snd (plan_serials n (serials last (n_serial n))) then Done (n_session n) (n_serial n) else Failed).
Proof.
  intros n ls last (Hc & Hk & Hn) Hl Hd Hm Hle N. cbn [plan].
  assert (P : forall k, last <= k <= n_serial n -> delta_at (n_deltas n) k <> None).
  { intros k Hk' E. apply N. right. right. exists k. split; [exact Hk'|]. rewrite delta_at_has. congruence. }
  destruct (missing (S (S (length (n_deltas n)))) (n_deltas n) last (n_serial n)) as [m|] eqn:M;
    [|exfalso; exact (missing_total _ _ _ Hl Hn M)].
  destruct (Z.eqb_spec last 0) as [E|E]; [exfalso; apply N; left; exact E|]. cbn [orb].
  destruct (negb (beq ls (n_session n))) eqn:S; [exfalso; apply N; right; left; apply session_test; exact S|]. cbn [orb].
  destruct m.
  { exfalso. apply missing_true in M; [|exact Hl|exact Hm]. destruct M as (k & K1 & K2). exact (P k K1 K2). }
  rewrite (wrap64_id (last + 1)) by (unfold int64 in *; lia).
  apply plan_deltas_serials; try assumption; [lia|].
  destruct (present_range _ _ _ P); lia.
Qed.

Lemma serials_split : forall a b c, a <= b <= c -> serials a c = serials a b ++ serials b c.
Proof.
  intros a b c H. unfold serials.
  replace (Z.to_nat (c - a)) with (Z.to_nat (b - a) + Z.to_nat (c - b))%nat by lia.
  rewrite seq_app, map_app. f_equal. rewrite Nat.add_0_l.
  replace (Z.to_nat (b - a)) with (Z.to_nat (b - a) + 0)%nat at 1 by lia.
  assert (G : forall m k, map (fun i => a + 1 + Z.of_nat i) (seq (Z.to_nat (b - a) + k) m) =
              map (fun i => b + 1 + Z.of_nat i) (seq k m)).
  { induction m as [|m IH]; intros k; cbn [seq map]; [reflexivity|]. f_equal; [lia|].
    rewrite <- IH. f_equal. f_equal. lia. }
  apply G.
Qed.

Lemma serials_in : forall a b k, In k (serials a b) <-> a < k <= b.
Proof.
  intros a b k. unfold serials. rewrite in_map_iff. split.
  - intros (i & <- & Hi). apply in_seq in Hi. lia.
  - intros H. exists (Z.to_nat (k - a - 1)). split; [lia|]. apply in_seq. lia.
Qed.

Theorem retry_later : forall n n2 ls last s s' s1 a b,
  plain_notif n -> plain_notif n2 -> 0 < last -> last <= n_serial n <= n_serial n2 -> n_serial n2 < 2 ^ 63 - 1 ->
  ~ needs_snapshot n ls last -> ~ needs_snapshot n2 ls last ->
  (forall k u, last < k <= n_serial n -> announces n k u -> announces n2 k u) ->
  fetch (Some n) ls last s = (s1, Done a b) ->
  interrupted (Some n) ls last s s' ->
  snd (fetch (Some n2) ls last s') = snd (fetch (Some n2) a b s1) /\
  forall l, fst (fetch (Some n2) ls last s') l = fst (fetch (Some n2) a b s1) l.
Proof.
  intros n n2 ls last s s' s1 a b Hn Hn2 H0 Hle Hm N1 N2 Hk F I.
  assert (Hn' := Hn). destruct Hn' as (Hc & _). assert (Hn2' := Hn2). destruct Hn2' as (Hc2 & _). unfold int64 in Hc, Hc2.
  assert (P1 : plan ops snap delta (Some n) ls last = _) by (apply plan_update; try assumption; unfold int64; lia).
  assert (P2 : plan ops snap delta (Some n2) ls last = _) by (apply plan_update; try assumption; unfold int64; lia).
  assert (X : plan_serials n (serials last (n_serial n)) = plan_serials n2 (serials last (n_serial n))).
  { apply plan_serials_ext. intros k Hin. apply serials_in in Hin.
    destruct (delta_at (n_deltas n) k) as [u|] eqn:E.
    - apply delta_at_some in E. apply Hk in E; [|lia].
      destruct (delta_at (n_deltas n2) k) as [u2|] eqn:E2.
      + apply delta_at_some in E2. destruct E as (x & y & E & G), E2 as (x2 & y2 & E2 & G2).
        f_equal. rewrite E in E2. clear - E2 G G2. revert x2 E2. induction x as [|c x IH]; intros [|c2 x2] E2; cbn [app] in E2.
        * injection E2. auto.
        * injection E2 as _ ->. exfalso. apply (G u2). apply in_elt.
        * injection E2 as _ <-. exfalso. apply (G2 u). apply in_elt.
        * injection E2 as <- E2. exact (IH _ E2).
      + exfalso. rewrite delta_at_none in E2. destruct E as (x & y & E & G). apply (E2 u). rewrite E. apply in_elt.
    - exfalso. apply N1. right. right. exists k. split; [lia|]. rewrite delta_at_has. congruence. }
  rewrite fetch_is_plan, P1 in F. cbn [fst snd] in F.
  destruct (texec fs step (fst (plan_serials n (serials last (n_serial n)))) s) as [s1' v] eqn:T.
  unfold finish in F. cbn [fst snd] in F. destruct v; [|discriminate|discriminate].
  destruct (snd (plan_serials n (serials last (n_serial n)))) eqn:O; [|discriminate].
  injection F as -> <- <-.
  assert (N3 : ~ needs_snapshot n2 (n_session n) (n_serial n)).
  { intros [G|[G|(k & Gk & Gn)]]; [lia| |apply N2; right; right; exists k; split; [lia|exact Gn]].
    apply N2. right. left. intros ->. apply N1. right. left. congruence. }
  assert (P3 : plan ops snap delta (Some n2) (n_session n) (n_serial n) = _) by (apply plan_update; try assumption; unfold int64; lia).
  rewrite (serials_split last (n_serial n) (n_serial n2)) in P2 by lia.
  rewrite plan_serials_app in P2 by (rewrite <- X; exact O). cbn [fst snd] in P2.
  set (q := fst (plan_serials n2 (serials (n_serial n) (n_serial n2)))) in *.
  apply interrupted_between with (q := q) in I. rewrite P1 in I. cbn [fst] in I.
  apply run_between in I. destruct I as (V & E).
  rewrite (texec_app fs step _ _ s), T in V, E.
  rewrite !fetch_is_plan, !finish_fst, P2, P3. cbn [fst snd]. rewrite <- X.
  split; [|exact E]. unfold finish. rewrite V. destruct (snd (texec fs step q s1)); reflexivity.
Qed.
End Octo.
