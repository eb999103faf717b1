(** The information page lists each module once, below the TAL that registered
    it first. *)
From Coq Require Import List ZArith String Arith Lia.
From Verif.Model Require Import Base Str Paths Validator Pool Octo Info.
From Verif.Spec Require Import InfoSpec.
From Verif.Proofs Require Import StrProofs OctoProofs.
Import ListNotations.

Lemma replace_nth_length {A} : forall n (a : A) l, length (replace_nth n a l) = length l.
Proof. induction n as [|n IH]; intros a [|x l]; cbn; try rewrite IH; reflexivity. Qed.

Lemma replace_nth_same {A} : forall n (a : A) l b, nth_error l n = Some b -> nth_error (replace_nth n a l) n = Some a.
Proof. induction n as [|n IH]; intros a [|x l] b H; cbn in *; try discriminate; [reflexivity|eauto]. Qed.

Lemma replace_nth_other {A} : forall n k (a : A) l, k <> n -> nth_error (replace_nth n a l) k = nth_error l k.
Proof.
  induction n as [|n IH]; intros k a [|x l] H; cbn; try reflexivity; destruct k as [|k]; cbn; try reflexivity;
    try congruence. apply IH. congruence.
Qed.

Lemma replace_nth_map {A B} (f : A -> B) : forall n a l b,
  nth_error (map f l) n = Some b -> f a = b -> map f (replace_nth n a l) = map f l.
Proof.
  induction n as [|n IH]; intros a [|x l] b H E; cbn in *; try discriminate; try reflexivity.
  - congruence.
  - f_equal. eapply IH; eauto.
Qed.

Lemma replace_nth_in {A} : forall n (a x : A) l, In x (replace_nth n a l) -> x = a \/ In x l.
Proof.
  induction n as [|n IH]; intros a x [|y l] H; cbn in *; try tauto.
  - destruct H; [left; congruence|right; right; assumption].
  - destruct H as [H|H]; [right; left; assumption|]. destruct (IH _ _ _ H); tauto.
Qed.

Lemma nodup_end {A} : forall (l : list A) a, NoDup l -> ~ In a l -> NoDup (l ++ [a]).
Proof.
  intros l a H N. apply NoDup_rev in H. rewrite <- (rev_involutive (l ++ [a])). apply NoDup_rev.
  rewrite rev_app_distr. cbn. constructor; [rewrite <- in_rev; exact N|exact H].
Qed.

Definition info_inv (n : nat) (evs : list (nat * bytes * bytes)) (st : list gslice * kmap gptr) : Prop :=
  length (fst st) = n /\
  (forall m q, snd st m = Some q ->
     first_below (p_slice q) m evs /\
     exists g, nth_error (fst st) (p_slice q) = Some g /\ nth_error (map s_rsync (g_items g)) (p_index q) = Some m) /\
  (forall m, snd st m = None -> forall j p, ~ In (j, m, p) evs) /\
  (forall i g, nth_error (fst st) i = Some g ->
     NoDup (map s_rsync (g_items g)) /\
     forall s, In s (g_items g) ->
       (exists q, snd st (s_rsync s) = Some q /\ p_slice q = i) /\
       exists j, In (j, s_rsync s, s_rrdp s) evs).

Lemma first_below_app : forall i m a b, first_below i m a -> first_below i m (a ++ b).
Proof.
  intros i m a b (x & p & y & -> & H). exists x, p, (y ++ b). split; [|exact H].
  rewrite <- app_assoc. reflexivity.
Qed.

Lemma first_below_unique : forall i j m l, first_below i m l -> first_below j m l -> i = j.
Proof.
  intros i j m l (x & p & y & -> & H) (x' & p' & y' & E & H').
  revert x' E H'. induction x as [|e x IH]; intros [|e' x'] E H'; cbn in E; injection E as E1 E2.
  - congruence.
  - exfalso. eapply H'. left. subst e'. reflexivity.
  - exfalso. eapply H. left. subst e. reflexivity.
  - eapply IH; eauto.
    + intros j0 q Hi. eapply H. right. exact Hi.
    + intros j0 q Hi. eapply H'. right. exact Hi.
Qed.

Section Grow.
Variable grow : nat -> nat.

Lemma gappend_items : forall s g, g_items (gappend grow s g) = g_items g ++ [s].
Proof. intros s g. unfold gappend. destruct (_ <? _)%nat; reflexivity. Qed.

Lemma info_add_inv : forall n evs i m p st,
  (i < n)%nat -> info_inv n evs st -> info_inv n (evs ++ [(i, m, p)]) (info_add grow i m p st).
Proof.
  intros n evs i m p [ia tmp] Hi (Hl & Hp & Hn & Hg). cbn [fst snd] in *. unfold info_add.
  destruct (tmp m) as [q|] eqn:E.
  - destruct (Hp _ _ E) as [Hf (g & Hq & Hx)].
    assert (K : forall evs' i' m' p', In (i', m', p') evs' -> In (i', m', p') (evs' ++ [(i, m, p)]))
      by (intros; apply in_or_app; left; assumption).
    unfold gwrite. rewrite Hq. destruct (g_array g =? p_array q)%nat; unfold info_inv; cbn [fst snd].
    + split; [rewrite replace_nth_length; exact Hl|]. split; [|split].
      * intros m' q' E'. destruct (Hp _ _ E') as [Hf' (g' & Hq' & Hx')]. split; [apply first_below_app; exact Hf'|].
        destruct (Nat.eq_dec (p_slice q') (p_slice q)) as [S|S].
        -- eexists. rewrite S. split; [eapply replace_nth_same; eauto|]. cbn [g_items].
           rewrite S, Hq in Hq'. injection Hq' as <-.
           rewrite (replace_nth_map s_rsync _ (mkSite m p) _ m Hx eq_refl). exact Hx'.
        -- exists g'. split; [rewrite replace_nth_other by exact S; exact Hq'|exact Hx'].
      * intros m' E' j p' H. apply in_app_or in H. destruct H as [H|[H|[]]]; [eapply Hn; eauto|]. congruence.
      * intros k g' Hk. destruct (Nat.eq_dec k (p_slice q)) as [->|S].
        -- rewrite (replace_nth_same _ _ _ _ Hq) in Hk. injection Hk as <-. cbn [g_items].
           rewrite (replace_nth_map s_rsync _ (mkSite m p) _ m Hx eq_refl).
           destruct (Hg _ _ Hq) as [Hd Hs]. split; [exact Hd|]. intros s Hin.
           apply replace_nth_in in Hin. destruct Hin as [->|Hin].
           ++ cbn [s_rsync s_rrdp]. split; [exists q; split; [exact E|reflexivity]|]. exists i.
              apply in_or_app. right. left. reflexivity.
           ++ destruct (Hs _ Hin) as [A (j & B)]. split; [exact A|]. exists j. apply K. exact B.
        -- rewrite replace_nth_other in Hk by exact S. destruct (Hg _ _ Hk) as [Hd Hs]. split; [exact Hd|].
           intros s Hin. destruct (Hs _ Hin) as [A (j & B)]. split; [exact A|]. exists j. apply K. exact B.
    + split; [exact Hl|]. split; [|split].
      * intros m' q' E'. destruct (Hp _ _ E') as [Hf' X]. split; [apply first_below_app; exact Hf'|exact X].
      * intros m' E' j p' H. apply in_app_or in H. destruct H as [H|[H|[]]]; [eapply Hn; eauto|]. congruence.
      * intros k g' Hk. destruct (Hg _ _ Hk) as [Hd Hs]. split; [exact Hd|].
        intros s Hin. destruct (Hs _ Hin) as [A (j & B)]. split; [exact A|]. exists j. apply K. exact B.
  - destruct (nth_error ia i) as [g|] eqn:Ei;
      [|apply nth_error_None in Ei; lia].
    set (g' := gappend grow (mkSite m p) g).
    assert (Gi : g_items g' = g_items g ++ [mkSite m p]) by apply gappend_items.
    set (q0 := mkGptr i (g_array g') (length (g_items g))).
    assert (Kne : forall k, k <> m -> kset tmp m q0 k = tmp k).
    { intros k Hk. unfold kset. destruct (beq m k) eqn:B; [apply beq_eq in B; congruence|].
      destruct (beq k m) eqn:B'; [apply beq_eq in B'; congruence|]. reflexivity. }
    assert (Keq : kset tmp m q0 m = Some q0) by (unfold kset; rewrite beq_refl; reflexivity).
    unfold info_inv; cbn [fst snd]. split; [rewrite replace_nth_length; exact Hl|]. split; [|split].
    + intros m' q E'. destruct (list_eq_dec Z.eq_dec m' m) as [->|N].
      * rewrite Keq in E'. injection E' as <-. split.
        -- exists evs, p, []. split; [reflexivity|]. intros j p'. apply Hn. exact E.
        -- exists g'. cbn [q0 p_slice p_index]. split; [eapply replace_nth_same; eauto|].
           rewrite Gi, map_app, nth_error_app2; rewrite map_length; [|lia].
           rewrite Nat.sub_diag. reflexivity.
      * rewrite Kne in E' by exact N. destruct (Hp _ _ E') as [Hf (h & Hh & Hx)].
        split; [apply first_below_app; exact Hf|].
        destruct (Nat.eq_dec (p_slice q) i) as [S|S].
        -- exists g'. rewrite S. split; [eapply replace_nth_same; eauto|].
           rewrite S, Ei in Hh. injection Hh as <-.
           rewrite Gi, map_app, nth_error_app1; [exact Hx|].
           apply nth_error_Some. congruence.
        -- exists h. split; [rewrite replace_nth_other by exact S; exact Hh|exact Hx].
    + intros m' E' j p' H. destruct (list_eq_dec Z.eq_dec m' m) as [->|N]; [congruence|].
      rewrite Kne in E' by exact N. apply in_app_or in H. destruct H as [H|[H|[]]]; [eapply Hn; eauto|]. congruence.
    + intros k h Hk. destruct (Nat.eq_dec k i) as [->|S].
      * rewrite (replace_nth_same _ _ _ _ Ei) in Hk. injection Hk as <-. rewrite Gi.
        destruct (Hg _ _ Ei) as [Hd Hs]. split.
        -- rewrite map_app. cbn [map s_rsync]. apply nodup_end; [exact Hd|].
           intros Hin. apply in_map_iff in Hin. destruct Hin as (s & E1 & E2).
           destruct (Hs _ E2) as [(q & Hq & _) _]. congruence.
        -- intros s Hin. apply in_app_or in Hin. destruct Hin as [Hin|[<-|[]]].
           ++ destruct (Hs _ Hin) as [(q & Hq & Hqi) (j & B)]. split.
              ** exists q. split; [rewrite Kne; [exact Hq|congruence]|exact Hqi].
              ** exists j. apply in_or_app. left. exact B.
           ++ cbn [s_rsync s_rrdp]. split; [exists q0; split; [exact Keq|reflexivity]|]. exists i.
              apply in_or_app. right. left. reflexivity.
      * rewrite replace_nth_other in Hk by exact S. destruct (Hg _ _ Hk) as [Hd Hs]. split; [exact Hd|].
        intros s Hin. destruct (Hs _ Hin) as [(q & Hq & Hqi) (j & B)]. split.
        -- exists q. split; [rewrite Kne; [exact Hq|congruence]|exact Hqi].
        -- exists j. apply in_or_app. left. exact B.
Qed.

Lemma info_tal_inv : forall n i l evs o st, (i < n)%nat -> info_inv n evs st ->
  fst (info_tal grow i l (o, st)) = register_all l o /\
  info_inv n (evs ++ regs_tal i l o) (snd (info_tal grow i l (o, st))).
Proof.
  intros n i. unfold info_tal, register_all.
  induction l as [|sia l IH]; intros evs o st Hi I; cbn [fold_left regs_tal].
  - rewrite app_nil_r. split; [reflexivity|exact I].
  - unfold info_cert at 2 4. destruct (registered_as sia o) as [[m p]|].
    + rewrite app_assoc. apply IH; [exact Hi|]. apply info_add_inv; assumption.
    + cbn [app]. apply IH; assumption.
Qed.

Lemma info_tals_inv : forall ls n i evs o st, (i + length ls <= n)%nat -> info_inv n evs st ->
  info_inv n (evs ++ regs i ls o) (snd (info_tals grow i ls (o, st))).
Proof.
  induction ls as [|l ls IH]; intros n i evs o st Hi I; cbn [info_tals regs].
  - rewrite app_nil_r. exact I.
  - cbn [length] in Hi. destruct (info_tal_inv n i l evs o st ltac:(lia) I) as [E I'].
    destruct (info_tal grow i l (o, st)) as [o' st'] eqn:F. cbn [fst snd] in *. subst o'.
    rewrite app_assoc. apply IH; [lia|exact I'].
Qed.

Lemma info_final : forall ls o,
  info_inv (length ls) (regs 0 ls o) (snd (info_tals grow 0 ls (o, (map (fun _ => gslice_new) ls, kempty)))).
Proof.
  intros ls o. apply (info_tals_inv ls (length ls) 0%nat [] o); [lia|].
  unfold info_inv; cbn [fst snd]. split; [apply map_length|]. split; [|split].
  - intros m q H. discriminate.
  - intros m _ j p [].
  - intros i g H. rewrite nth_error_map in H. destruct (nth_error ls i); [|discriminate].
    injection H as <-. cbn. split; [constructor|]. intros s [].
Qed.

Lemma info_length : forall ls o, length (info_authorities grow ls o) = length ls.
Proof. intros ls o. unfold info_authorities. rewrite map_length. apply (info_final ls o). Qed.

Lemma info_modules : forall ls o i sites, nth_error (info_authorities grow ls o) i = Some sites ->
  NoDup (map s_rsync sites) /\ forall m, In m (map s_rsync sites) <-> first_below i m (regs 0 ls o).
Proof.
  intros ls o i sites H. unfold info_authorities in H. rewrite nth_error_map in H.
  destruct (nth_error _ i) as [g|] eqn:E in H; [|discriminate]. injection H as <-.
  destruct (info_final ls o) as (Hl & Hp & Hn & Hg). destruct (Hg _ _ E) as [Hd Hs].
  split; [exact Hd|]. intros m. split.
  - intros Hin. apply in_map_iff in Hin. destruct Hin as (s & <- & Hin).
    destruct (Hs _ Hin) as [(q & Hq & <-) _]. destruct (Hp _ _ Hq) as [Hf _]. exact Hf.
  - intros Hf. destruct (snd (snd (info_tals grow 0 ls (o, (map (fun _ => gslice_new) ls, kempty)))) m) as [q|] eqn:Eq.
    + destruct (Hp _ _ Eq) as [Hf' (g' & Hg' & Hx)].
      rewrite (first_below_unique _ _ _ _ Hf' Hf), E in Hg'. injection Hg' as <-.
      eapply nth_error_In; eauto.
    + exfalso. destruct Hf as (a & p & b & Ee & _). eapply (Hn _ Eq i p). rewrite Ee.
      apply in_or_app. right. left. reflexivity.
Qed.

Lemma info_rrdp : forall ls o i sites s, nth_error (info_authorities grow ls o) i = Some sites -> In s sites ->
  exists j, In (j, s_rsync s, s_rrdp s) (regs 0 ls o).
Proof.
  intros ls o i sites s H Hin. unfold info_authorities in H. rewrite nth_error_map in H.
  destruct (nth_error _ i) as [g|] eqn:E in H; [|discriminate]. injection H as <-.
  destruct (info_final ls o) as (_ & _ & _ & Hg). apply (Hg _ _ E). exact Hin.
Qed.
End Grow.

(** What is registered is what [register] does. *)
Lemma registered_register : forall sia o,
  match registered_as sia o with
  | None => register sia o = o
  | Some (m, p) => o_jobs (register sia o) m = Some p /\ In m (o_cur (register sia o))
  end.
Proof.
  assert (A : forall l k, In k (add_key l k)).
  { intros l k. unfold add_key, key_in. destruct (existsb (beq k) l) eqn:E.
    - apply existsb_exists in E. destruct E as (x & H & B). apply beq_eq in B. subst x. exact H.
    - apply in_or_app. right. left. reflexivity. }
  assert (K : forall (f : kmap bytes) m p, kset f m p m = Some p).
  { intros f m p. unfold kset. rewrite beq_refl. reflexivity. }
  intros sia o. unfold registered_as, register.
  destruct (domain_module _) as [[m d]|]; [|reflexivity].
  destruct (first_sia is_sia_notify sia) as [p|]; [|cbn; auto].
  destruct (o_domain o p) as [prev|]; [|cbn; auto].
  destruct (beq prev d); cbn; auto.
Qed.

Lemma serve_info_page : forall tals names ia, length ia = length tals ->
  (length names = length tals -> serve_info tals names ia = combine names ia) /\
  (length names <> length tals -> serve_info tals names ia = combine tals ia).
Proof.
  intros tals names ia H.
  assert (P : forall ts k as_, length as_ = length ts ->
    info_page k false ts names as_ = combine ts as_ /\
    (length (skipn k names) = length ts -> info_page k true ts names as_ = combine (skipn k names) as_)).
  { induction ts as [|t ts IH]; intros k [|a as_] L; try discriminate; cbn [info_page combine].
    - split; [reflexivity|]. intros E. destruct (skipn k names); reflexivity.
    - injection L as L. destruct (IH (S k) as_ L) as [I1 I2]. split; [rewrite I1; reflexivity|].
      intros E. cbn [length] in E.
      assert (X : skipn k names = nth k names [] :: skipn (S k) names).
      { clear -E. revert k E. induction names as [|x names IHn]; intros [|k] E; cbn in *; try discriminate; [reflexivity|].
        apply IHn. exact E. }
      rewrite X in E |- *. cbn [combine length] in *. f_equal. apply I2. congruence. }
  unfold serve_info. split; intros E.
  - apply Nat.eqb_eq in E as E'. rewrite E'. apply (P tals 0%nat ia H). exact E.
  - apply Nat.eqb_neq in E as E'. rewrite E'. apply (P tals 0%nat ia H).
Qed.

(** ** Counterexamples *)

(** A certificate for the module [m] of the host h, naming the address [p]. *)
Definition i_cert (m p : string) : list (sia_method * bytes) :=
  [(SiaRepo, str "rsync://h/" ++ str m ++ str "/x"); (SiaNotify, str p)]%list.
Definition i_module (m : string) : bytes := (str "rsync://h/" ++ str m)%list.

(** The module a is registered with the address p, then with r, and between
    them the module b takes the only slice to another array. *)
Lemma info_stale : forall grow, grow 0%nat = 1%nat ->
  let ls := [[i_cert "a" "p"; i_cert "b" "q"; i_cert "a" "r"]]%string in
  info_authorities grow ls octo_empty =
    [[mkSite (i_module "a") (str "p"); mkSite (i_module "b") (str "q")]]%string /\
  regs 0 ls octo_empty =
    [(0%nat, i_module "a", str "p"); (0%nat, i_module "b", str "q"); (0%nat, i_module "a", str "r")]%string /\
  o_jobs (register_all (concat ls) octo_empty) (i_module "a") = Some (str "r").
Proof.
  intros grow G ls. subst ls. unfold info_authorities. cbn [map info_tals].
  unfold info_tal. cbn [fold_left]. unfold info_cert.
  split; [|split; vm_compute; reflexivity].
  repeat match goal with |- context [registered_as ?a ?b] =>
    let v := eval vm_compute in (registered_as a b) in
    replace (registered_as a b) with v by (vm_compute; reflexivity) end.
  unfold info_add at 3. cbn [kempty nth_error]. unfold gappend at 1 2. cbn [gslice_new g_items g_cap length Nat.ltb Nat.leb].
  rewrite G. vm_compute. reflexivity.
Qed.

Lemma info_other_tal : forall grow,
  let ls := [[i_cert "a" "p"]; [i_cert "a" "r"]]%string in
  info_authorities grow ls octo_empty = [[mkSite (i_module "a") (str "r")]; []]%string.
Proof. intros grow ls. vm_compute. reflexivity. Qed.
