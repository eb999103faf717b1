(** Where the octets in the cache come from, and that what is published is
    read. *)
From Coq Require Import List ZArith Lia Bool String.
From Verif.Model Require Import Base Str Base64 Tal TalText Paths Validator Cache Rrdp RrdpXml XmlLex RrdpHttp Pool Octo NetCache.
From Verif.Spec Require Import B64 PathSpec RrdpSpec RrdpHttpSpec NetCacheSpec.
From Verif.Proofs Require Import StrProofs RrdpProofs RrdpCrash RrdpThm PathProofs Base64Proofs CacheProofs CacheThm CacheEvents XmlLexRrdp RrdpHttpProofs RrdpHttpThm.
Import ListNotations.
Open Scope Z_scope.

Lemma Forall2_in_r : forall A B (R : A -> B -> Prop) l l', Forall2 R l l' -> forall e, In e l' -> exists a, In a l /\ R a e.
Proof.
  intros A B R l l' F. induction F as [|a b l l' H F IH]; intros e I; [destruct I|].
  destruct I as [<-|I]; [exists a; split; [now left|exact H]|]. destruct (IH e I) as (a' & I' & H'). exists a'. split; [now right|exact H'].
Qed.

Lemma serials_at : forall last cur k, last < k <= cur -> serials last cur = serials last (k - 1) ++ k :: serials k cur.
Proof.
  intros last cur k H. rewrite (serials_split last (k - 1) cur), (serials_cons (k - 1)) by lia. now replace (k - 1 + 1) with k by lia.
Qed.

(** ** Files stay files *)
Definition a_file (s : fs) (l : loc) : Prop := exists x, s l = Some (File x).
Lemma fset_file : forall s p l x, a_file s l -> a_file (fset s p (File x)) l.
Proof.
  intros s p l x H. destruct (list_eq_dec (list_eq_dec Z.eq_dec) l p) as [->|N]; [exists x; apply fset_eq|].
  destruct H as (y & H). exists y. now rewrite fset_neq.
Qed.
Lemma exec_file : forall ops s l, a_file s l -> a_file (fst (exec ops s)) l.
Proof.
  induction ops as [|o ops IH]; intros s l H; [exact H|]. unfold exec. cbn [exec_with].
  destruct o as [p|p x| |]; cbn [step]; [| |exact H|exact H].
  - destruct (s p) as [[|y]|] eqn:E; [| exact H |];
      (apply IH; destruct (list_eq_dec (list_eq_dec Z.eq_dec) l p) as [->|N];
       [destruct H as (z & H); congruence|destruct H as (z & H); exists z; now rewrite fset_neq]).
  - destruct (s p) as [[|y]|] eqn:E; [exact H| |]; apply IH, fset_file, H.
Qed.
Section Inv.
Variable limit : Z.
Variables first_more second_more : Z -> bool.
Variable refuse_colons : bool.
Variable St : Type.
Variable cb : event -> St -> St * verdict.
Variable cb_text : event -> St -> bytes.
Variable bad_at : bytes -> Z.
Variable web : bytes -> answer.
Variable P : St -> Prop.
Hypothesis cb_keeps : forall e s, P s -> P (fst (cb e s)).
Lemma hdeliver_inv : forall mk ign L s, P s -> P (fst (hdeliver St cb cb_text bad_at mk ign L s)).
Proof.
  intros mk ign L. induction L as [|[u t] L IH]; intros s H; cbn [hdeliver]; [exact H|].
  destruct (decode_rrdp_base64 t) as [d|]; [|exact H]. pose proof (cb_keeps (mk u d) s H) as K.
  destruct (cb (mk u d) s) as [s1 v]. cbn [fst] in K. destruct v; [exact (IH _ K)|destruct ign; [exact (IH _ K)|exact K]|exact K].
Qed.
Lemma hdeliver_doc_inv : forall mk ign d s, P s -> P (fst (hdeliver_doc St cb cb_text bad_at mk ign d s)).
Proof.
  intros mk ign d s H. unfold hdeliver_doc. pose proof (hdeliver_inv (mk false) false (fst d) s H) as K.
  destruct (hdeliver St cb cb_text bad_at (mk false) false (fst d) s) as [s1 v]. cbn [fst] in K.
  destruct v; [exact (hdeliver_inv _ _ _ _ K)|exact K..].
Qed.
Lemma hdeltas_inv : forall fuel n last serial tmp s, P s ->
  P (fst (fst (hdeltas limit first_more second_more refuse_colons St cb cb_text bad_at web fuel n last serial tmp s))).
Proof.
  induction fuel as [|f IH]; intros n last serial tmp s H; cbn [hdeltas]; [exact H|].
  destruct ((serial <=? n_serial n) && (0 <? wrap64 (n_serial n - last))); [|exact H].
  destruct (delta_at (n_deltas n) serial) as [u|]; [|exact H].
  destruct (node _ _ _ _ web u) as [d|e|]; [|exact H..].
  match goal with |- context [hdeliver_doc St cb cb_text bad_at ?m ?i d s] =>
    pose proof (hdeliver_doc_inv m i d s H) as K; destruct (hdeliver_doc St cb cb_text bad_at m i d s) as [s1 v] end.
  cbn [fst] in K. destruct v; [|exact K..].
  specialize (IH n last (wrap64 (serial + 1)) serial s1 K).
  destruct (hdeltas _ _ _ _ _ _ _ _ _ f n last (wrap64 (serial + 1)) serial s1) as [[s2 r2] q2]. exact IH.
Qed.
Lemma fetch_inv : forall path ls last s, P s ->
  P (fst (fst (fetch_http limit first_more second_more refuse_colons St cb cb_text bad_at web path ls last s))).
Proof.
  intros path ls last s H. unfold fetch_http.
  destruct (get_doc limit web _ path) as [n|e|]; [|exact H..].
  destruct (missing _ _ last (n_serial n)) as [m|]; [|exact H].
  destruct ((last =? 0) || negb (beq ls (n_session n)) || m).
  - unfold hsnapshot. destruct (node _ _ _ _ web (n_snapshot n)) as [d|e|]; [|exact H..].
    match goal with |- context [hdeliver_doc St cb cb_text bad_at ?m ?i d s] =>
      pose proof (hdeliver_doc_inv m i d s H) as K; destruct (hdeliver_doc St cb cb_text bad_at m i d s) as [s1 v] end.
    cbn [fst] in K. destruct v; exact K.
  - pose proof (hdeltas_inv (S (S (List.length (n_deltas n)))) n last (wrap64 (last + 1)) last s H) as K.
    destruct (hdeltas _ _ _ _ _ _ _ _ _ _ n last (wrap64 (last + 1)) last s) as [[s2 r2] q2]. exact K.
Qed.
End Inv.

Section Net.
Variable limit : Z.
Variables first_more second_more : Z -> bool.
Variable refuse_colons : bool.
Variable cb_text : event -> fs -> bytes.
Variable bad_at : bytes -> Z.
Variable failover : bool.
Variable hex_sha1 : bytes -> bytes.
Variable cwd : loc.
Variable base : bytes.
Hypothesis Hbase : base <> [].
Let B := resolve cwd base.
Notation place := (NetCacheSpec.place cwd base).

Lemma write_origin : forall url data s s' v l x, rooted_fs s ->
  exec (write_ops cwd base url data) s = (s', v) -> s' l = Some (File x) ->
  s l = Some (File x) \/ (place url l /\ x = data).
Proof.
  intros url data s s' v l x R E H.
  destruct (write_cases cwd base Hbase url data s s' v R E) as [(_ & -> & _)|(f & d & c & s1 & v1 & -> & Ef & E1 & C)]; [auto|].
  destruct C as [(-> & _ & _)|[(_ & -> & _)|(_ & _ & _ & P & _ & W & ->)]].
  - left. eapply dirs_no_new_file; eauto.
  - left. eapply dirs_no_new_file; eauto.
  - destruct (list_eq_dec (list_eq_dec Z.eq_dec) l (resolve cwd base ++ names_of d ++ [c])) as [->|N].
    + rewrite fset_eq in H. injection H as <-. right. split; [|reflexivity]. exists f. split; [reflexivity|].
      rewrite resolve_join, Ef, fold_walk_app, W by exact Hbase. cbn [fold_left]. now rewrite (walk_name _ c P), <- app_assoc.
    + rewrite fset_neq in H by exact N. left. eapply dirs_no_new_file; eauto.
Qed.
Lemma write_rooted : forall url data s s' v, rooted_fs s -> exec (write_ops cwd base url data) s = (s', v) -> rooted_fs s'.
Proof.
  intros url data s s' v R E.
  refine (octo_rooted cwd base [] Hbase (mkEvent [] url data false false 0) s s' v R _).
  unfold octo_cb, callback_ops. cbn [e_path e_data]. replace (contains url []) with true; [exact E|].
  symmetry. apply contains_spec. exists [], url. reflexivity.
Qed.

(** ** RRDP *)
Section Rrdp.
Variable domain : bytes.
Notation cb := (octo_cb cwd base domain).
Definition from (L : list elem) (l : loc) (x : bytes) : Prop :=
  exists a t before after, In (a, t) L /\ a = before ++ domain ++ after /\ place a l /\ b64_text (strip t) x.
Lemma cb_origin : forall e s s' v l x, rooted_fs s -> cb e s = (s', v) -> s' l = Some (File x) ->
  s l = Some (File x) \/ (place (e_path e) l /\ x = e_data e /\ exists a b, e_path e = a ++ domain ++ b).
Proof.
  intros e s s' v l x R E H. unfold octo_cb, callback_ops in E. destruct (contains (e_path e) domain) eqn:C; cbn [negb] in E.
  - destruct (write_origin _ _ _ _ _ _ _ R E H) as [G|[P D]]; [auto|]. right. split; [exact P|]. split; [exact D|].
    apply contains_spec in C. exact C.
  - injection E as <- _. auto.
Qed.
Lemma hdeliver_origin : forall mk ign L s s' r, (forall u d, e_path (mk u d) = u /\ e_data (mk u d) = d) -> rooted_fs s ->
  hdeliver fs cb cb_text bad_at mk ign L s = (s', r) ->
  rooted_fs s' /\ forall l x, s' l = Some (File x) -> s l = Some (File x) \/ from L l x.
Proof.
  intros mk ign L s s' r M. revert s. induction L as [|[u t] L IH]; intros s R H; cbn [hdeliver] in H.
  - injection H as <- _. auto.
  - destruct (decode_rrdp_base64 t) as [d|] eqn:D; [|injection H as <- _; auto].
    apply decode_rrdp_base64_exact in D. destruct (M u d) as [Mp Md].
    destruct (cb (mk u d) s) as [s1 v] eqn:E. pose proof (octo_rooted cwd base domain Hbase _ _ _ _ R E) as R1.
    assert (forall l x, s1 l = Some (File x) -> s l = Some (File x) \/ from ((u, t) :: L) l x) as O1.
    { intros l x F. destruct (cb_origin _ _ _ _ _ _ R E F) as [G|(P & -> & a & b & C)]; [auto|]. right.
      rewrite Mp in P, C. rewrite Md. exists u, t, a, b. split; [now left|auto]. }
    assert (forall s2, rooted_fs s2 /\ (forall l x, s2 l = Some (File x) -> s1 l = Some (File x) \/ from L l x) ->
      rooted_fs s2 /\ forall l x, s2 l = Some (File x) -> s l = Some (File x) \/ from ((u, t) :: L) l x) as K.
    { intros s2 [R2 O2]. split; [exact R2|]. intros l x F. destruct (O2 l x F) as [G|(a & t' & p & q & I & G)]; [auto|].
      right. exists a, t', p, q. split; [now right|exact G]. }
    destruct v; [exact (K _ (IH _ R1 H))| |injection H as <- _; auto].
    destruct ign; [exact (K _ (IH _ R1 H))|injection H as <- _; auto].
Qed.
Lemma hdeliver_doc_origin : forall mk ign d s s' r, (forall w u x, e_path (mk w u x) = u /\ e_data (mk w u x) = x) -> rooted_fs s ->
  hdeliver_doc fs cb cb_text bad_at mk ign d s = (s', r) ->
  rooted_fs s' /\ forall l x, s' l = Some (File x) -> s l = Some (File x) \/ from (fst d ++ snd d) l x.
Proof.
  intros mk ign d s s' r M R H. unfold hdeliver_doc in H.
  destruct (hdeliver fs cb cb_text bad_at (mk false) false (fst d) s) as [s1 v] eqn:E.
  destruct (hdeliver_origin _ _ _ _ _ _ (M false) R E) as [R1 O1].
  assert (forall L l x, from L l x -> forall L', incl L L' -> from L' l x) as W.
  { intros L l x (a & t & p & q & I & G) L' N. exists a, t, p, q. split; [exact (N _ I)|exact G]. }
  assert (rooted_fs s1 /\ forall l x, s1 l = Some (File x) -> s l = Some (File x) \/ from (fst d ++ snd d) l x) as A1.
  { split; [exact R1|]. intros l x F. destruct (O1 l x F) as [G|G]; [auto|]. right. apply (W _ _ _ G). apply incl_appl, incl_refl. }
  destruct v; [|injection H as <- _; exact A1..].
  destruct (hdeliver_origin _ _ _ _ _ _ (M true) R1 H) as [R2 O2]. split; [exact R2|].
  intros l x F. destruct (O2 l x F) as [G|G]; [apply A1, G|]. right. apply (W _ _ _ G). apply incl_appr, incl_refl.
Qed.

Variable web : bytes -> answer.
Definition online (l : loc) (x : bytes) : Prop :=
  exists a before after, a = before ++ domain ++ after /\ place a l /\ element limit first_more second_more refuse_colons web a x.
Notation node := (node limit first_more second_more refuse_colons web).
Lemma node_element : forall u d l x, node u = Got d -> from (fst d ++ snd d) l x -> online l x.
Proof.
  intros u d l x N (a & t & p & q & I & E & P & T). unfold RrdpHttp.node, get_doc in N.
  destruct (get_xml limit (web u)) as [b|e] eqn:G; [|discriminate N]. apply get_ok in G.
  destruct (parse_node_octets first_more second_more refuse_colons b) as [d'| |] eqn:Y; [|discriminate N..]. injection N as ->.
  destruct d as [dp dw].
  exists a, p, q. split; [exact E|]. split; [exact P|]. exists u, b, dp, dw, t. auto.
Qed.
Lemma doc_step : forall u d mk ign s s' r, node u = Got d -> (forall w u x, e_path (mk w u x) = u /\ e_data (mk w u x) = x) -> rooted_fs s ->
  hdeliver_doc fs cb cb_text bad_at mk ign d s = (s', r) ->
  rooted_fs s' /\ forall l x, s' l = Some (File x) -> s l = Some (File x) \/ online l x.
Proof.
  intros u d mk ign s s' r N M R H. destruct (hdeliver_doc_origin mk ign d s s' r M R H) as [R1 O]. split; [exact R1|].
  intros l x F. destruct (O l x F) as [G|G]; [auto|]. right. exact (node_element u d l x N G).
Qed.
Lemma hdeltas_origin : forall fuel n last serial tmp s s' r q, rooted_fs s ->
  hdeltas limit first_more second_more refuse_colons fs cb cb_text bad_at web fuel n last serial tmp s = (s', r, q) ->
  rooted_fs s' /\ forall l x, s' l = Some (File x) -> s l = Some (File x) \/ online l x.
Proof.
  induction fuel as [|f IH]; intros n last serial tmp s s' r q R H; cbn [hdeltas] in H; [injection H as <- _ _; auto|].
  destruct ((serial <=? n_serial n) && (0 <? wrap64 (n_serial n - last))); [|injection H as <- _ _; auto].
  destruct (delta_at (n_deltas n) serial) as [u|]; [|injection H as <- _ _; auto].
  destruct (node u) as [d|e|] eqn:N; [|injection H as <- _ _; auto..].
  match goal with H : context [hdeliver_doc fs cb cb_text bad_at ?m ?i d s] |- _ =>
    destruct (hdeliver_doc fs cb cb_text bad_at m i d s) as [s1 v] eqn:E end.
  apply (doc_step u d) in E; [|exact N|auto|exact R].
  destruct v; [|injection H as <- _ _; exact E..].
  destruct (hdeltas _ _ _ _ _ _ _ _ _ f n last (wrap64 (serial + 1)) serial s1) as [[s2 r2] q2] eqn:G. injection H as <- _ _.
  destruct E as [R1 O1]. destruct (IH _ _ _ _ _ _ _ _ R1 G) as [R2 O2]. split; [exact R2|].
  intros l x F. destruct (O2 l x F) as [K|K]; [exact (O1 l x K)|auto].
Qed.
Lemma rrdp_origin : forall path ls last s, rooted_fs s ->
  let s' := fst (fst (fetch_http limit first_more second_more refuse_colons fs cb cb_text bad_at web path ls last s)) in
  rooted_fs s' /\ forall l x, s' l = Some (File x) -> s l = Some (File x) \/ online l x.
Proof.
  intros path ls last s R. unfold fetch_http.
  destruct (get_doc limit web _ path) as [n|e|]; cbn [fst]; [|auto|auto].
  destruct (missing _ _ last (n_serial n)) as [m|]; cbn [fst]; [|auto].
  destruct ((last =? 0) || negb (beq ls (n_session n)) || m).
  - unfold hsnapshot. destruct (node (n_snapshot n)) as [d|e|] eqn:N; cbn [fst]; [|auto|auto].
    match goal with |- context [hdeliver_doc fs cb cb_text bad_at ?m ?i d s] =>
      destruct (hdeliver_doc fs cb cb_text bad_at m i d s) as [s1 v] eqn:E end.
    apply (doc_step (n_snapshot n) d) in E; [|exact N|auto|exact R]. destruct v; cbn [fst]; exact E.
  - destruct (hdeltas _ _ _ _ _ _ _ _ _ _ n last (wrap64 (last + 1)) last s) as [[s2 r2] q2] eqn:G. cbn [fst].
    exact (hdeltas_origin _ _ _ _ _ _ _ _ _ R G).
Qed.
End Rrdp.

(** ** Certificates of TALs *)
Lemma uris_origin : forall web pl uris s s' v, rooted_fs s -> fetch_uris cwd base (got_http web) pl uris s = (s', v) ->
  rooted_fs s' /\ forall l x, s' l = Some (File x) -> s l = Some (File x) \/
    (place pl l /\ exists u, In u uris /\ web u = Response 200 x None /\ exists r, u = str "http://" ++ r \/ u = str "https://" ++ r).
Proof.
  intros web pl uris. induction uris as [|u uris IH]; intros s s' v R H; cbn [fetch_uris] in H; [injection H as <- _; auto|].
  assert (forall s1 s2, (rooted_fs s2 /\ forall l x, s2 l = Some (File x) -> s1 l = Some (File x) \/
      (place pl l /\ exists u, In u uris /\ web u = Response 200 x None /\ exists r, u = str "http://" ++ r \/ u = str "https://" ++ r)) ->
    rooted_fs s2 /\ forall l x, s2 l = Some (File x) -> s1 l = Some (File x) \/
      (place pl l /\ exists u', In u' (u :: uris) /\ web u' = Response 200 x None /\ exists r, u' = str "http://" ++ r \/ u' = str "https://" ++ r)) as W.
  { intros s1 s2 [R2 O]. split; [exact R2|]. intros l x F. destruct (O l x F) as [G|(P & u' & I & G)]; [auto|].
    right. split; [exact P|]. exists u'. split; [now right|exact G]. }
  destruct (is_http u) eqn:Hu; [|exact (W _ _ (IH _ _ _ R H))].
  unfold got_http at 1 in H. destruct (get_http u [] (web u)) as [d|e] eqn:G; [|exact (W _ _ (IH _ _ _ R H))].
  apply tal_body in G. destruct (exec (write_ops cwd base pl d) s) as [s1 v1] eqn:E.
  pose proof (write_rooted _ _ _ _ _ R E) as R1.
  assert (forall l x, s1 l = Some (File x) -> s l = Some (File x) \/
    (place pl l /\ exists u', In u' (u :: uris) /\ web u' = Response 200 x None /\ exists r, u' = str "http://" ++ r \/ u' = str "https://" ++ r)) as O1.
  { intros l x F. destruct (write_origin _ _ _ _ _ _ _ R E F) as [K|[P ->]]; [auto|]. right. split; [exact P|]. exists u.
    split; [now left|]. split; [exact G|]. unfold is_http in Hu. apply orb_prop in Hu.
    destruct Hu as [Hu|Hu]; apply has_prefix_spec in Hu; destruct Hu as (r & ->); eauto. }
  destruct v1; [injection H as <- _; auto| |injection H as <- _; auto].
  destruct (W _ _ (IH _ _ _ R1 H)) as [R2 O2]. split; [exact R2|]. intros l x F. destruct (O2 l x F) as [K|K]; [exact (O1 l x K)|auto].
Qed.

(** ** All sources *)
Notation run_source := (run_source limit first_more second_more refuse_colons cb_text bad_at failover hex_sha1 cwd base).
Notation run_sources := (run_sources limit first_more second_more refuse_colons cb_text bad_at failover hex_sha1 cwd base).
Notation delivers := (delivers limit first_more second_more refuse_colons hex_sha1 cwd base).
Lemma leq_iff : forall a b, leq a b = true <-> a = b.
Proof.
  induction a as [|x a IH]; intros [|y b]; cbn [leq]; split; intros H; try reflexivity; try discriminate H.
  - apply andb_prop in H. destruct H as [H1 H2]. apply beq_eq in H1. apply IH in H2. now subst.
  - injection H as -> ->. rewrite beq_refl. now apply IH.
Qed.
Lemma strictly_iff : forall d l, strictly_under d l = true <-> exists c r, l = d ++ c :: r.
Proof.
  intros d l. unfold strictly_under. rewrite andb_true_iff, negb_true_iff, leq_iff. split.
  - intros [E N]. pose proof (firstn_skipn (List.length d) l) as K. rewrite E in K.
    destruct (skipn (List.length d) l) as [|c r]; [|eauto].
    exfalso. rewrite app_nil_r in K. assert (leq l d = true) by now apply leq_iff. congruence.
  - intros (c & r & ->). split; [rewrite firstn_app, Nat.sub_diag, firstn_all; cbn; apply app_nil_r|].
    destruct (leq (d ++ c :: r) d) eqn:E; [|reflexivity]. apply leq_iff in E. apply (f_equal (@List.length _)) in E.
    rewrite app_length in E. cbn [List.length] in E. lia.
Qed.
Lemma source_origin : forall src s, rooted_fs s ->
  rooted_fs (run_source src s) /\ forall l x, run_source src s l = Some (File x) -> s l = Some (File x) \/ delivers src l x.
Proof.
  intros src s R. destruct src as [domain path session serial web|t web|uri files]; cbn [NetCache.run_source NetCacheSpec.delivers].
  - exact (rrdp_origin domain web path session serial s R).
  - unfold fetch_tal. destruct (fetch_uris cwd base (got_http web) (get_rsync_uri hex_sha1 t) (t_uris t) s) as [s' v] eqn:E.
    destruct (uris_origin web _ _ _ _ _ R E) as [R1 O]. destruct v; cbn [fst]; auto.
  - unfold rsync_mkdir. destruct (rsync_dest cwd base uri) as [d|] eqn:D; [|auto].
    destruct (exec (map ODir (prefixes d)) s) as [s1 v] eqn:E.
    assert (rooted_fs s1) as R1.
    { unfold rooted_fs in *. pose proof (exec_dirs_keep (prefixes d) s [] R) as K. rewrite E in K. exact K. }
    pose proof (fun l x => dirs_no_new_file _ _ _ _ l x E) as O1.
    assert (place uri d) as P.
    { unfold rsync_dest, extract_file in D. destruct (is_rsync_url uri) eqn:U; [|discriminate D]. injection D as <-.
      apply has_prefix_spec in U. destruct U as (f & ->). exists f. split; [reflexivity|]. now rewrite trim_scheme. }
    destruct v; [|split; [exact R1|auto]|split; [exact R1|auto]].
    split.
    + unfold rooted_fs in *. destruct (strictly_under d []) eqn:U; [|exact R1].
      apply strictly_iff in U. destruct U as (c & r & U). destruct d; discriminate U.
    + intros l x F. destruct (strictly_under d l) eqn:U; [|auto]. right. split; [exact F|].
      apply strictly_iff in U. destruct U as (c & r & U). eauto.
Qed.
Theorem sources_origin : forall srcs s, rooted_fs s -> rooted_fs (run_sources srcs s) /\
  forall l x, run_sources srcs s l = Some (File x) -> s l = Some (File x) \/ exists src, In src srcs /\ delivers src l x.
Proof.
  induction srcs as [|src srcs IH]; intros s R; [cbn; auto|].
  unfold NetCache.run_sources. cbn [fold_left]. fold (run_sources srcs (run_source src s)).
  destruct (source_origin src s R) as [R1 O1]. destruct (IH _ R1) as [R2 O2]. split; [exact R2|].
  intros l x F. destruct (O2 l x F) as [G|(z & I & G)].
  - destruct (O1 l x G) as [K|K]; [auto|]. right. exists src. split; [now left|exact K].
  - right. exists z. split; [now right|exact G].
Qed.
Theorem disk_origin : forall srcs s p x, rooted_fs s -> disk_of cwd base (run_sources srcs s) p = Some x ->
  disk_of cwd base s p = Some x \/
  exists src, In src srcs /\ delivers src (resolve cwd (get_local_path (octo_map base) p)) x.
Proof.
  intros srcs s p x R H. unfold disk_of in *. destruct (sources_origin srcs s R) as [_ O].
  destruct (run_sources srcs s (resolve cwd (get_local_path (octo_map base) p))) as [[|y]|] eqn:E; try discriminate H.
  injection H as ->. destruct (O _ _ E) as [G|G]; [left; now rewrite G|auto].
Qed.

(** ** Nothing is lost *)
Lemma uris_file : forall get pl uris s l, a_file s l -> a_file (fst (fetch_uris cwd base get pl uris s)) l.
Proof.
  intros get pl uris. induction uris as [|u uris IH]; intros s l H; cbn [fetch_uris]; [exact H|].
  destruct (is_http u); [|exact (IH _ _ H)]. destruct (get u) as [d|]; [|exact (IH _ _ H)].
  pose proof (exec_file (write_ops cwd base pl d) s l H) as K. destruct (exec (write_ops cwd base pl d) s) as [s1 v]. cbn [fst] in K.
  destruct v; [exact K|exact (IH _ _ K)|exact K].
Qed.
Lemma source_file : forall src s l, a_file s l ->
  (forall uri files d c r, src = FromRsync uri files -> place uri d -> l <> d ++ c :: r) -> a_file (run_source src s) l.
Proof.
  intros src s l H N. destruct src as [domain path session serial web|t web|uri files]; cbn [NetCache.run_source].
  - apply (fetch_inv _ _ _ _ _ _ _ _ _ (fun s => a_file s l)); [|exact H]. intros e s0 K. unfold octo_cb. now apply exec_file.
  - unfold fetch_tal. pose proof (uris_file (got_http web) (get_rsync_uri hex_sha1 t) (t_uris t) s l H) as K.
    destruct (fetch_uris cwd base (got_http web) (get_rsync_uri hex_sha1 t) (t_uris t) s) as [s1 v]. cbn [fst] in K. destruct v; exact K.
  - unfold rsync_mkdir. destruct (rsync_dest cwd base uri) as [d|] eqn:D; [|exact H].
    pose proof (exec_file (map ODir (prefixes d)) s l H) as K. destruct (exec (map ODir (prefixes d)) s) as [s1 v]. cbn [fst] in K.
    destruct v; [|exact K..]. unfold a_file. destruct (strictly_under d l) eqn:U; [|exact K].
    apply strictly_iff in U. destruct U as (c & r & U). exfalso. refine (N uri files d c r eq_refl _ U).
    unfold rsync_dest, extract_file in D. destruct (is_rsync_url uri) eqn:E; [|discriminate D]. injection D as <-.
    apply has_prefix_spec in E. destruct E as (f & ->). exists f. split; [reflexivity|]. now rewrite trim_scheme.
Qed.
Theorem sources_keep : forall srcs s l x, rooted_fs s -> s l = Some (File x) ->
  (forall uri files d c r, In (FromRsync uri files) srcs -> place uri d -> l <> d ++ c :: r) ->
  exists y, run_sources srcs s l = Some (File y) /\ (y = x \/ exists src, In src srcs /\ delivers src l y).
Proof.
  intros srcs s l x R H N. assert (K : a_file (run_sources srcs s) l).
  { assert (A : a_file s l) by (exists x; exact H). clear R H. revert s A. induction srcs as [|src srcs IH]; intros s A; [exact A|].
    unfold NetCache.run_sources. cbn [fold_left]. fold (run_sources srcs (run_source src s)). apply IH.
    - intros uri files d c r I. apply (N uri files). now right.
    - apply source_file; [exact A|]. intros uri files d c r ->. apply (N uri files). now left. }
  destruct K as (y & K). exists y. split; [exact K|]. destruct (proj2 (sources_origin srcs s R) l y K) as [G|G]; [|auto].
  left. congruence.
Qed.

(** ** What is published is read *)
Lemma octo_write : forall domain e f s s', rooted_fs s -> octo_cb cwd base domain e s = (s', VOk) ->
  e_path e = rsync_scheme ++ f -> contains (e_path e) domain = true ->
  s' (resolve cwd (path_join base f)) = Some (File (e_data e)).
Proof.
  intros domain e f s s' R E Ef Ed. unfold octo_cb, callback_ops in E. rewrite Ed in E. cbn [negb] in E.
  destruct (write_cases cwd base Hbase _ _ _ _ _ R E) as [(_ & _ & G)|(f' & d & c & s1 & v1 & Ef' & Es & E1 & C)]; [discriminate G|].
  rewrite Ef in Ef'. apply app_inv_head in Ef'. subst f'.
  destruct C as [(_ & _ & G)|[(_ & _ & G)|(_ & _ & _ & P & _ & W & ->)]]; [congruence|discriminate G|].
  rewrite resolve_join, Es, fold_walk_app, W by exact Hbase. cbn [fold_left]. rewrite (walk_name _ c P), <- app_assoc. apply fset_eq.
Qed.
Notation elsewhere f := (fun f' => resolve cwd (path_join base f') <> resolve cwd (path_join base f)).
Lemma doc_arrives : forall u b k domain p1 a t p2 w es rest s s' f d,
  rooted_fs s -> plays (octo_cb cwd base domain) s (es ++ rest) s' ->
  doc_events (fun w p x => mkEvent u p x w b k) (p1 ++ (a, t) :: p2, w) es ->
  a = rsync_scheme ++ f -> contains a domain = true -> b64_text (strip t) d ->
  (forall a' t' f', In (a', t') (p2 ++ w) -> a' = rsync_scheme ++ f' -> elsewhere f f') ->
  (forall e f', In e rest -> e_path e = rsync_scheme ++ f' -> elsewhere f f') ->
  s' (resolve cwd (path_join base f)) = Some (File d).
Proof.
  intros u b k domain p1 a t p2 w es rest s s' f d R Pl (ep & ew & F1 & F2 & ->) -> Cd T N N2.
  apply Forall2_app_inv_l in F1. destruct F1 as (e1 & e2 & _ & F1 & ->). inversion F1 as [|? e ? e2' (d' & T' & Ee) F1']; subst.
  cbn [fst snd] in *. assert (d' = d) as ->.
  { apply decode_rrdp_base64_exact in T, T'. congruence. }
  rewrite <- !app_assoc in Pl. cbn [app] in Pl. apply (plays_split cwd base domain) in Pl. destruct Pl as (s1 & P1 & P2).
  inversion P2 as [|? ? s2 v ? ? H2 H3 H5]; subst.
  pose proof (plays_rooted cwd base domain Hbase _ _ _ P1 R) as R1.
  assert (v = VOk) as ->.
  { destruct H3 as [->|(_ & W & _)]; [reflexivity|discriminate W]. }
  pose proof (octo_write domain _ f _ _ R1 H2 eq_refl Cd) as G. cbn [e_data] in G.
  assert (forall e f', In e (e2' ++ ew ++ rest) -> e_path e = rsync_scheme ++ f' -> elsewhere f f') as N'.
  { intros e f' I Ef. apply in_app_or in I. destruct I as [I|I]; [|apply in_app_or in I; destruct I as [I|I]].
    - apply (Forall2_in_r _ _ _ _ _ F1') in I. destruct I as ([a' t'] & I & dd & _ & ->). cbn [e_path fst] in Ef.
      apply (N a' t' f'); [apply in_or_app; auto|exact Ef].
    - apply (Forall2_in_r _ _ _ _ _ F2) in I. destruct I as ([a' t'] & I & dd & _ & ->). cbn [e_path fst] in Ef.
      apply (N a' t' f'); [apply in_or_app; auto|exact Ef].
    - exact (N2 e f' I Ef). }
  apply (proj1 (plays_other cwd base domain Hbase _ _ _ (resolve cwd (path_join base f)) H5
    (octo_rooted cwd base domain Hbase _ _ _ _ R1 H2) N')). exact G.
Qed.
Lemma update_arrives : forall n delta last k u domain p1 a t p2 w es s s' f d,
  rooted_fs s -> plays (octo_cb cwd base domain) s es s' -> update_events n delta last es ->
  last < k <= n_serial n -> (forall v, announces n k v -> v = u) -> delta k u = Some (p1 ++ (a, t) :: p2, w) ->
  a = rsync_scheme ++ f -> contains a domain = true -> b64_text (strip t) d ->
  (forall a' t' f', In (a', t') (p2 ++ w) -> a' = rsync_scheme ++ f' -> elsewhere f f') ->
  (forall k' u' x a' t' f', k < k' <= n_serial n -> announces n k' u' -> delta k' u' = Some x -> In (a', t') (fst x ++ snd x) ->
     a' = rsync_scheme ++ f' -> elsewhere f f') ->
  s' (resolve cwd (path_join base f)) = Some (File d).
Proof using Hbase.
  intros n delta last k u domain p1 a t p2 w es s s' f d R Pl (ess & F & ->) Hk Hu Hd Ea Cd T N N2.
  rewrite (serials_at _ _ _ Hk) in F.
  apply Forall2_app_inv_l in F. destruct F as (l1 & l2 & _ & F & ->). inversion F as [|? e ? l3 (u' & x & A & D & De) F']; subst.
  rewrite (Hu _ A) in D. rewrite Hd in D. injection D as <-.
  rewrite concat_app in Pl. apply (plays_split cwd base domain) in Pl. destruct Pl as (s1 & P1 & P2).
  refine (doc_arrives _ _ _ domain p1 _ t p2 w e (concat l3) s1 s' f d (plays_rooted cwd base domain Hbase _ _ _ P1 R) P2 De eq_refl Cd T N _).
  intros ev f' I Ef. apply in_concat in I. destruct I as (l & Il & I).
  apply (Forall2_in_r _ _ _ _ _ F') in Il. destruct Il as (k' & Ik & u2 & x & A2 & D2 & (pe & we & G1 & G2 & ->)).
  apply serials_in in Ik. apply in_app_or in I. destruct I as [I|I].
  - apply (Forall2_in_r _ _ _ _ _ G1) in I. destruct I as ([a' t'] & I & dd & _ & ->). cbn [e_path fst] in Ef.
    apply (N2 k' u2 x a' t' f' Ik A2 D2); [apply in_or_app; auto|exact Ef].
  - apply (Forall2_in_r _ _ _ _ _ G2) in I. destruct I as ([a' t'] & I & dd & _ & ->). cbn [e_path fst] in Ef.
    apply (N2 k' u2 x a' t' f' Ik A2 D2); [apply in_or_app; auto|exact Ef].
Qed.
End Net.
