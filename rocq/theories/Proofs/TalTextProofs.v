(** Reading back the text form of a trust anchor locator. *)
From Coq Require Import Lia String.
From Verif.Model Require Import Base Str Tal Base64 TalText.
From Verif.Spec Require Import B64 TalSpec.
From Verif.Proofs Require Import StrProofs Base64Proofs.

Lemma read_lines_line : forall u cur r, ~ In 10 u ->
  read_lines cur (u ++ 10 :: r) =
  (let (ls, e) := read_lines [] r in ((rev cur ++ u ++ [10]) :: ls, e)).
Proof.
  induction u as [|c u IH]; intros cur r H; cbn [app read_lines].
  - cbn [Z.eqb Pos.eqb]. reflexivity.
  - destruct (c =? 10) eqn:E; [apply Z.eqb_eq in E; subst c; exfalso; apply H; now left|].
    rewrite IH by (intros K; apply H; now right). destruct (read_lines [] r).
    cbn [rev]. now rewrite <- app_assoc.
Qed.

Lemma read_lines_end : forall u cur, ~ In 10 u -> read_lines cur u = ([], rev cur ++ u).
Proof.
  induction u as [|c u IH]; intros cur H; cbn [read_lines].
  - now rewrite app_nil_r.
  - destruct (c =? 10) eqn:E; [apply Z.eqb_eq in E; subst c; exfalso; apply H; now left|].
    rewrite IH by (intros K; apply H; now right). cbn [rev]. now rewrite <- app_assoc.
Qed.

Definition nl (u : bytes) : bytes := u ++ [10].

(** Joined pieces followed by a line feed are so many lines. *)
Lemma read_lines_join_nl : forall us r, us <> [] -> Forall (fun u => ~ In 10 u) us ->
  read_lines [] (join [10] us ++ 10 :: r) =
  (let (ls, e) := read_lines [] r in (map nl us ++ ls, e)).
Proof.
  induction us as [|u us IH]; intros r N F; [congruence|]. inversion F; subst.
  destruct us as [|u' us].
  - cbn [join]. rewrite read_lines_line by assumption. destruct (read_lines [] r). reflexivity.
  - change (join [10] (u :: u' :: us)) with (u ++ [10] ++ join [10] (u' :: us)).
    rewrite <- !app_assoc. cbn [app]. rewrite read_lines_line by assumption.
    rewrite IH; [|congruence|assumption]. destruct (read_lines [] r). reflexivity.
Qed.

Lemma read_lines_join : forall ps, Forall (fun u => ~ In 10 u) ps ->
  read_lines [] (join [10] ps) = (map nl (removelast ps), last ps []).
Proof.
  induction ps as [|p ps IH]; intros F; [reflexivity|]. inversion F; subst.
  destruct ps as [|p' ps].
  - cbn [join removelast last map]. now rewrite read_lines_end.
  - change (join [10] (p :: p' :: ps)) with (p ++ 10 :: join [10] (p' :: ps)).
    rewrite read_lines_line by assumption. rewrite IH by assumption. reflexivity.
Qed.

(** ** One line *)
Lemma delete_nl : forall u, last u 0 <> 13 -> delete_line_end (nl u) = u.
Proof.
  intros u H. unfold delete_line_end, nl. rewrite rev_unit.
  destruct (rev u) as [|c r] eqn:E.
  - rewrite rev_unit. cbn [Z.eqb Pos.eqb]. now rewrite rev_involutive.
  - assert (L : last u 0 = c).
    { rewrite <- (rev_involutive u), E. cbn [rev]. apply last_last. }
    rewrite L in H. destruct (c =? 13) eqn:K; [apply Z.eqb_eq in K; congruence|].
    rewrite rev_unit. cbn [Z.eqb Pos.eqb]. apply rev_involutive.
Qed.

Lemma tal_line_uri : forall us b u, good_uri u ->
  tal_line (mkT false us b) (nl u) = mkT false (us ++ [u]) b.
Proof.
  intros us b u (N & _ & H35 & H13 & HL). unfold tal_line. rewrite delete_nl by exact HL.
  destruct u as [|c u]; [congruence|]. cbn [hd] in *.
  destruct (c =? 13) eqn:K; [apply Z.eqb_eq in K; congruence|].
  destruct (c =? 35) eqn:K'; [apply Z.eqb_eq in K'; congruence|]. reflexivity.
Qed.

Lemma tal_line_uris : forall us acc b, Forall good_uri us ->
  fold_left tal_line (map nl us) (mkT false acc b) = mkT false (acc ++ us) b.
Proof.
  induction us as [|u us IH]; intros acc b F; cbn [map fold_left].
  - now rewrite app_nil_r.
  - inversion F; subst. rewrite tal_line_uri by assumption. rewrite IH by assumption.
    now rewrite <- app_assoc.
Qed.

Lemma tal_line_empty : forall s, tal_line s [10] = mkT true (ts_urls s) (ts_b64 s).
Proof. reflexivity. Qed.

Lemma tal_line_key : forall us b p, ~ In 13 p ->
  tal_line (mkT true us b) (nl p) = mkT true us (b ++ p).
Proof.
  intros us b p H. unfold tal_line. rewrite delete_nl.
  - destruct p as [|c p]; [cbn; now rewrite app_nil_r|].
    destruct (c =? 13) eqn:K; [apply Z.eqb_eq in K; subst c; exfalso; apply H; now left|].
    cbn [ts_passed ts_urls ts_b64]. now rewrite andb_false_r.
  - intros K. destruct p as [|c p] using rev_ind; [discriminate|]. rewrite last_last in K. subst c.
    apply H. apply in_app_iff. right. now left.
Qed.

Lemma tal_line_keys : forall ps us b, Forall (fun p => ~ In 13 p) ps ->
  fold_left tal_line (map nl ps) (mkT true us b) = mkT true us (b ++ concat ps).
Proof.
  induction ps as [|p ps IH]; intros us b F; cbn [map fold_left concat].
  - now rewrite app_nil_r.
  - inversion F; subst. rewrite tal_line_key by assumption. rewrite IH by assumption.
    now rewrite <- app_assoc.
Qed.

(** ** The pieces of the key *)
Lemma concat_pieces : forall key s n,
  concat (map (key_piece key s) (seq 0 n)) = firstn (n * s) key.
Proof.
  intros key s. induction n as [|n IH]; [reflexivity|].
  rewrite seq_S, map_app, concat_app, IH. cbn [map concat Nat.add]. rewrite app_nil_r. unfold key_piece.
  rewrite <- (firstn_skipn (n * s) key) at 3.
  rewrite firstn_app. rewrite firstn_length.
  destruct (le_lt_dec (n * s) (length key)) as [L|L].
  - rewrite Nat.min_l by exact L. replace (S n * s - n * s)%nat with s by (cbn; lia).
    f_equal. rewrite firstn_firstn. f_equal. cbn. lia.
  - rewrite skipn_all2 by lia. rewrite !firstn_nil. f_equal.
    rewrite (firstn_all2 (n := n * s)) by lia. rewrite firstn_all2; [reflexivity|]. cbn. lia.
Qed.

Lemma concat_key_split : forall key s, (0 < s)%nat -> concat (key_split key s) = key.
Proof.
  intros key s H. unfold key_split. rewrite concat_pieces. apply firstn_all2.
  pose proof (Nat.div_mod (length key) s). pose proof (Nat.mod_upper_bound (length key) s). cbn. nia.
Qed.

Lemma key_split_in : forall key s p c, In p (key_split key s) -> In c p -> In c key.
Proof.
  intros key s p c Hp Hc. unfold key_split in Hp. apply in_map_iff in Hp. destruct Hp as (i & <- & _).
  unfold key_piece in Hc.
  rewrite <- (firstn_skipn (i * s) key). apply in_app_iff. right.
  rewrite <- (firstn_skipn s (skipn (i * s) key)). apply in_app_iff. now left.
Qed.

Lemma concat_removelast : forall A (ps : list (list A)), concat (removelast ps) ++ last ps [] = concat ps.
Proof.
  induction ps as [|p ps IH]; [reflexivity|]. destruct ps as [|q ps]; [cbn; now rewrite app_nil_r|].
  change (removelast (p :: q :: ps)) with (p :: removelast (q :: ps)).
  change (last (p :: q :: ps) []) with (last (q :: ps) []). cbn [concat]. rewrite <- app_assoc, IH. reflexivity.
Qed.

Lemma removelast_in : forall A (x : A) l, In x (removelast l) -> In x l.
Proof.
  induction l as [|a l IH]; [easy|]. destruct l as [|b l]; [easy|].
  change (removelast (a :: b :: l)) with (a :: removelast (b :: l)).
  intros [->|H]; [now left|right; auto].
Qed.

Definition head_lines (uris : list bytes) : list bytes :=
  match uris with [] => [[10]] | _ => map nl uris end.

(** The header: URIs and the empty line. *)
Lemma scan_header : forall uris key ps, Forall good_uri uris ->
  key = join [10] ps -> Forall (fun p => ~ In 10 p /\ ~ In 13 p) ps ->
  tal_scan (join [10] uris ++ [10; 10] ++ key) = (uris, concat ps).
Proof.
  intros uris key ps Hu -> Hp. unfold tal_scan.
  assert (Hp10 : Forall (fun p => ~ In 10 p) ps) by (eapply Forall_impl; [|exact Hp]; now intros ? [? ?]).
  assert (Hp13 : Forall (fun p => ~ In 13 p) (removelast ps)).
  { apply Forall_forall. intros p K. apply removelast_in in K. rewrite Forall_forall in Hp. now apply Hp. }
  assert (K : read_lines [] (10 :: join [10] ps) = ([10] :: map nl (removelast ps), last ps [])).
  { cbn [read_lines Z.eqb Pos.eqb]. now rewrite read_lines_join by exact Hp10. }
  assert (K2 : read_lines [] (join [10] uris ++ [10; 10] ++ join [10] ps) =
               ((head_lines uris) ++ [10] :: map nl (removelast ps), last ps [])).
  { destruct uris as [|u uris].
    - cbn [join app]. change (10 :: 10 :: join [10] ps) with (10 :: (10 :: join [10] ps)).
      cbn [read_lines Z.eqb Pos.eqb] in *. destruct (read_lines [] (join [10] ps)). now inversion K.
    - change ([10; 10] ++ join [10] ps) with (10 :: 10 :: join [10] ps). rewrite read_lines_join_nl.
      + rewrite K. reflexivity.
      + congruence.
      + eapply Forall_impl; [|exact Hu]. now intros ? (_ & ? & _). }
  rewrite K2. rewrite fold_left_app. cbn [fold_left].
  assert (E : tal_line (fold_left tal_line (head_lines uris)
                          (mkT false [] [])) [10] = mkT true uris []).
  { destruct uris as [|u uris]; [reflexivity|].
    rewrite (tal_line_uris (u :: uris)) by exact Hu. reflexivity. }
  rewrite E. rewrite tal_line_keys by exact Hp13. cbn [ts_urls ts_b64 app].
  now rewrite concat_removelast.
Qed.

Theorem tal_scan_text : forall uris der split, Forall good_uri uris -> bytes_ok der = true ->
  tal_scan (tal_text uris der split) = (uris, b64_raw der).
Proof.
  intros uris der split Hu Hd. unfold tal_text.
  assert (A : forall c, In c (b64_raw der) -> c <> 10 /\ c <> 13).
  { intros c Hc. pose proof (b64_raw_alpha der Hd) as F. rewrite Forall_forall in F. specialize (F c Hc).
    split; intros ->; now apply F. }
  destruct (0 <? split) eqn:S.
  - rewrite (scan_header uris _ (key_split (b64_raw der) (Z.to_nat split))); auto.
    + rewrite concat_key_split by lia. reflexivity.
    + apply Forall_forall. intros p Hp. split; intros K; apply (key_split_in _ _ _ _ Hp) in K; apply A in K; tauto.
  - rewrite (scan_header uris _ [b64_raw der]); auto.
    + cbn [concat]. now rewrite app_nil_r.
    + constructor; [|constructor]. split; intros K; apply A in K; tauto.
Qed.

Section Asn1.
  Variable marshal_spki : Z -> Z -> bytes.
  Variable parse_spki : bytes -> option pubkey.

  (** Writing and reading back. *)
  Theorem tal_round_trip : forall uris k n e t split text,
    bytes_ok (marshal_spki n e) = true -> parse_spki (marshal_spki n e) = Some (RSAPtr n e) ->
    Forall good_uri uris -> k = RSAPtr n e \/ k = RSAVal n e ->
    create_tal uris k = Some t -> encode_tal_size marshal_spki t split = Ret (Some text) ->
    (length (marshal_spki n e) mod 3 = 0)%nat ->
    decode_tal parse_spki text = Some (mkTal uris alg_rsa (RSAPtr n e)).
  Proof.
    intros uris k n e t split text marshal_ok parse_marshal Hu Hk Ht He Hl.
    assert (t = mkTal uris alg_rsa (RSAVal n e)) as -> by (destruct Hk; subst k; cbn in Ht; congruence).
    unfold encode_tal_size in He. cbn [t_alg t_key t_uris] in He. rewrite Z.eqb_refl in He.
    injection He as <-. unfold decode_tal. rewrite tal_scan_text by auto.
    unfold b64_decode. rewrite alpha_not_crlf by (apply b64_raw_alpha; auto).
    rewrite b64_raw_groups by auto. now rewrite parse_marshal.
  Qed.

  (** A key encoding whose length is not a multiple of three cannot be read
      back: it is written without the padding the reader wants. *)
  Theorem tal_unreadable : forall uris k n e t split text,
    bytes_ok (marshal_spki n e) = true -> Forall good_uri uris -> k = RSAPtr n e \/ k = RSAVal n e ->
    create_tal uris k = Some t -> encode_tal_size marshal_spki t split = Ret (Some text) ->
    (length (marshal_spki n e) mod 3 <> 0)%nat ->
    decode_tal parse_spki text = None.
  Proof.
    intros uris k n e t split text marshal_ok Hu Hk Ht He Hl.
    assert (t = mkTal uris alg_rsa (RSAVal n e)) as -> by (destruct Hk; subst k; cbn in Ht; congruence).
    unfold encode_tal_size in He. cbn [t_alg t_key t_uris] in He. rewrite Z.eqb_refl in He.
    injection He as <-. unfold decode_tal. rewrite tal_scan_text by auto.
    unfold b64_decode. rewrite alpha_not_crlf by (apply b64_raw_alpha; auto).
    now rewrite b64_raw_fails by auto.
  Qed.

  Theorem create_encode_total : forall uris k split, (forall b, k <> OtherKey b) ->
    exists t text, create_tal uris k = Some t /\ encode_tal_size marshal_spki t split = Ret (Some text).
  Proof.
    intros uris [n e|n e|b] split H.
    - eexists _, _; split; reflexivity.
    - eexists _, _; split; reflexivity.
    - now destruct (H b).
  Qed.

  (** A TAL that was read cannot be written: the type assertion fails. *)
  Theorem decoded_encode_panics : forall data t split,
    (forall d n e, parse_spki d <> Some (RSAVal n e)) ->
    decode_tal parse_spki data = Some t -> t_alg t = alg_rsa ->
    encode_tal_size marshal_spki t split = Panic.
  Proof.
    intros data t split HP H A. unfold decode_tal in H. destruct (tal_scan data) as [urls b].
    destruct (b64_decode b) as [d|]; [|discriminate].
    destruct (parse_spki d) as [[n e|n e|x]|] eqn:E; [..|discriminate].
    - injection H as <-. reflexivity.
    - now destruct (HP d n e).
    - injection H as <-. discriminate A.
  Qed.

  (** A TAL that was created makes the key check panic. *)
  Theorem created_check_panics : forall uris k t ckey,
    create_tal uris k = Some t -> check_certificate t alg_rsa ckey = Panic.
  Proof. intros uris [n e|n e|b] t ckey H; [| |discriminate]; injection H as <-; reflexivity. Qed.
End Asn1.

(** ** Location *)
Lemma pick_uri_first : forall l o, 
  (exists a u b, l = a ++ u :: b /\ has_prefix u rsync_scheme = true /\
     Forall (fun x => has_prefix x rsync_scheme = false) a /\ fst (pick_uri l o) = u) \/
  (Forall (fun x => has_prefix x rsync_scheme = false) l /\ pick_uri l o = ([], last l o)).
Proof.
  induction l as [|u l IH]; intros o.
  - right. split; [constructor|reflexivity].
  - cbn [pick_uri]. destruct (has_prefix u rsync_scheme) eqn:E.
    + left. exists [], u, l. cbn. auto.
    + destruct (IH u) as [(a & v & b & -> & Hv & Ha & E2)|[F E2]].
      * left. exists (u :: a), v, b. repeat split; auto.
      * right. split; [constructor; auto|]. rewrite E2. f_equal. destruct l as [|y l]; [reflexivity|].
        clear. revert y. induction l as [|x l IH]; intros y; [reflexivity|]. apply (IH x).
Qed.

Lemma rsync_nonempty : forall u, has_prefix u rsync_scheme = true -> u <> [].
Proof. intros [|? ?] H; [discriminate|congruence]. Qed.

Section Location.
  Variable hex_sha1 : bytes -> bytes.

  (** The first rsync URI wins. *)
  Theorem rsync_uri_first : forall t a u b,
    t_uris t = a ++ u :: b -> has_prefix u rsync_scheme = true ->
    Forall (fun x => has_prefix x rsync_scheme = false) a -> get_rsync_uri hex_sha1 t = u.
  Proof.
    intros t a u b E Hu Ha. unfold get_rsync_uri.
    assert (P : forall o, exists o', pick_uri (t_uris t) o = (u, o')).
    { rewrite E. clear E. induction Ha as [|x a Hx Ha IH]; intros o; cbn [app pick_uri].
      - rewrite Hu. eauto.
      - rewrite Hx. apply IH. }
    destruct (P []) as [o' ->]. destruct u; [discriminate|reflexivity].
  Qed.

  (** Without one, the name is made from the last URI. *)
  Theorem rsync_uri_none : forall t,
    Forall (fun x => has_prefix x rsync_scheme = false) (t_uris t) ->
    get_rsync_uri hex_sha1 t =
    str "rsync://rfc8630/certs/" ++ hex_sha1 (last (t_uris t) []) ++ str ".cer".
  Proof.
    intros t F. unfold get_rsync_uri.
    destruct (pick_uri_first (t_uris t) []) as [(a & u & b & E & Hu & _)|[_ ->]]; [|reflexivity].
    exfalso. rewrite E in F. apply Forall_app in F. destruct F as [_ F]. inversion F; congruence.
  Qed.

  (** Two such TALs share a name exactly when the digests of their last URIs agree. *)
  Theorem rsync_uri_none_inj : forall t t',
    Forall (fun x => has_prefix x rsync_scheme = false) (t_uris t) ->
    Forall (fun x => has_prefix x rsync_scheme = false) (t_uris t') ->
    get_rsync_uri hex_sha1 t = get_rsync_uri hex_sha1 t' <->
    hex_sha1 (last (t_uris t) []) = hex_sha1 (last (t_uris t') []).
  Proof.
    intros t t' F F'. rewrite !rsync_uri_none by assumption. split; [|now intros ->].
    intros H. apply app_inv_head in H. now apply app_inv_tail in H.
  Qed.

  (** A TAL with an rsync URI collides with a TAL without one only by naming
      that place itself. *)
  Theorem rsync_uri_collision : forall t t',
    Forall (fun x => has_prefix x rsync_scheme = false) (t_uris t) ->
    has_rsync t' = true -> get_rsync_uri hex_sha1 t = get_rsync_uri hex_sha1 t' ->
    In (str "rsync://rfc8630/certs/" ++ hex_sha1 (last (t_uris t) []) ++ str ".cer") (t_uris t').
  Proof.
    intros t t' F H E. rewrite (rsync_uri_none t F) in E. rewrite E. unfold get_rsync_uri.
    destruct (pick_uri_first (t_uris t') []) as [(a & u & b & El & Hu & _ & Eu)|[F' _]].
    - destruct (pick_uri (t_uris t') []) as [r o]. cbn in Eu. subst r.
      destruct u; [discriminate|]. rewrite El. apply in_app_iff. right. now left.
    - exfalso. unfold has_rsync in H. apply existsb_exists in H. destruct H as (x & Hx & K).
      rewrite Forall_forall in F'. rewrite F' in K by assumption. discriminate.
  Qed.
End Location.

(** ** What is read *)
Lemma lines_split : forall data cur, ~ In 10 cur -> exists ls,
  fst (read_lines cur data) = map nl ls /\ Forall (fun l => ~ In 10 l) ls /\ ~ In 10 (snd (read_lines cur data)) /\
  rev cur ++ data = concat (map nl ls) ++ snd (read_lines cur data).
Proof.
  induction data as [|c data IH]; intros cur N; cbn [read_lines].
  - exists []. cbn [map concat fst snd app]. rewrite app_nil_r. split; [reflexivity|]. split; [constructor|]. split; [|reflexivity].
    intros K. apply N. now apply in_rev.
  - destruct (c =? 10) eqn:E.
    + apply Z.eqb_eq in E. subst c. destruct (IH [] (fun x => x)) as (ls & F & G & H & I).
      destruct (read_lines [] data) as [l e]. cbn [fst snd] in *. subst l. exists (rev cur :: ls). split; [reflexivity|].
      split; [constructor; [intros K; apply N; now apply in_rev|exact G]|]. split; [exact H|].
      cbn [map concat rev app] in *. rewrite I. unfold nl. rewrite <- !app_assoc. reflexivity.
    + destruct (IH (c :: cur)) as (ls & F & G & H & I).
      { intros [K|K]; [subst c; discriminate|auto]. }
      exists ls. split; [exact F|]. split; [exact G|]. split; [exact H|]. cbn [rev] in I. rewrite <- app_assoc in I. exact I.
Qed.

Lemma tal_line_trim : forall s l, ~ In 10 l ->
  tal_line s (nl l) = match trim l with
                      | [] => mkT true (ts_urls s) (ts_b64 s)
                      | c :: _ => mkT (ts_passed s)
                           (if negb (c =? 35) && negb (ts_passed s) then ts_urls s ++ [trim l] else ts_urls s)
                           (if ts_passed s then ts_b64 s ++ trim l else ts_b64 s)
                      end.
Proof.
  intros s l N.
  assert (D : delete_line_end (nl l) = rev (no_front (rev l))).
  { unfold delete_line_end, nl. rewrite rev_unit. destruct (rev l) as [|c r] eqn:E.
    - rewrite rev_unit, E. reflexivity.
    - cbn [no_front]. destruct (c =? 13) eqn:C.
      + rewrite rev_involutive. destruct r as [|x r]; [reflexivity|]. destruct (x =? 10) eqn:X; [|reflexivity].
        exfalso. apply N. apply in_rev. rewrite E. apply Z.eqb_eq in X. subst x. right. now left.
      + rewrite rev_unit. change (10 =? 10) with true. cbv iota. now rewrite E. }
  unfold tal_line. rewrite D. unfold trim. cbv zeta.
  assert (T : forall m : bytes, match m with c :: r => if c =? 13 then r else m | [] => m end = no_front m) by (now intros [|]).
  rewrite T. reflexivity.
Qed.

Lemma lines_after : forall ls us b, Forall (fun l => ~ In 10 l) ls ->
  fold_left tal_line (map nl ls) (mkT true us b) = mkT true us (b ++ concat (map trim ls)).
Proof.
  induction ls as [|l ls IH]; intros us b F; cbn [map fold_left concat]; [now rewrite app_nil_r|].
  inversion F; subst. rewrite tal_line_trim by assumption. cbn [ts_passed ts_urls ts_b64].
  destruct (trim l) as [|c r]; [apply IH; assumption|]. rewrite andb_false_r. rewrite IH by assumption. now rewrite <- app_assoc.
Qed.

Lemma lines_before : forall ls us, Forall (fun l => ~ In 10 l) ls -> exists before after,
  map trim ls = before ++ after /\ ~ In [] before /\ hd [] after = [] /\
  let s := fold_left tal_line (map nl ls) (mkT false us []) in
  ts_urls s = us ++ filter (fun l => negb (hd 0 l =? 35)) before /\ ts_b64 s = concat after.
Proof.
  induction ls as [|l ls IH]; intros us F; cbn [map fold_left].
  - exists [], []. cbn. rewrite app_nil_r. auto.
  - inversion F; subst. rewrite tal_line_trim by assumption. cbn [ts_passed ts_urls ts_b64].
    destruct (trim l) as [|c r] eqn:E.
    + exists [], ([] :: map trim ls). rewrite lines_after by assumption. cbn. rewrite app_nil_r. auto.
    + change (negb false) with true. rewrite andb_true_r.
      destruct (IH (if negb (c =? 35) then us ++ [c :: r] else us) H2) as (before & after & A & B & C & D & G).
      exists ((c :: r) :: before), after. rewrite A. split; [reflexivity|]. split; [intros [K|K]; [discriminate|auto]|].
      split; [exact C|]. cbv zeta in *. split; [|exact G]. etransitivity; [exact D|]. cbn [filter hd].
      destruct (negb (c =? 35)); [now rewrite <- app_assoc|reflexivity].
Qed.

Theorem tal_scan_reads : forall data, tal_read data (fst (tal_scan data)) (snd (tal_scan data)).
Proof.
  intros data. unfold tal_scan. destruct (lines_split data [] (fun x => x)) as (ls & F & G & H & I).
  destruct (read_lines [] data) as [l e]. cbn [fst snd rev app] in *. subst l.
  destruct (lines_before ls [] G) as (before & after & A & B & C & D & K).
  exists ls, e, before, after. cbv zeta in *. rewrite D, K. cbn [app]. auto 10.
Qed.
