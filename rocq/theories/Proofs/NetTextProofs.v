(** Printing a prefix and reading it back. *)
From Coq Require Import String Lia Decimal DecimalZ DecimalPos.
From Verif.Model Require Import Base NetIP CertRes Str TalText NetText.
From Verif.Spec Require Import Addr Resources.
From Verif.Proofs Require Import StrProofs NetIPProofs EncodeProofs CertProofs.
Open Scope Z_scope.

Lemma span_app f a r : Forall (fun c => f c = true) a ->
  match r with [] => True | c :: _ => f c = false end -> span f (a ++ r) = (a, r).
Proof.
  intros A R. induction a as [|c a IH]; cbn [app span].
  - destruct r as [|c r]; [reflexivity|]. cbn [span]. now rewrite R.
  - inversion A; subst. rewrite H1, IH by assumption. reflexivity.
Qed.

Lemma fold_horner b f s : forall acc, fold_left (fun a c => a * b + f c) s acc
  = acc * b ^ Z.of_nat (length s) + horner b f s.
Proof.
  unfold horner. induction s as [|c s IH]; intros acc; cbn [fold_left].
  - cbn [length]. change (Z.of_nat 0) with 0. rewrite Z.pow_0_r. lia.
  - rewrite IH, (IH (0 * b + f c)). cbn [length]. rewrite Nat2Z.inj_succ, Z.pow_succ_r by lia. ring.
Qed.

(** Decimals. *)
Lemma uint_horner u : forall p,
  fold_left (fun a c => a * 10 + dval c) (uint_bytes u) (Zpos p) = Zpos (Pos.of_uint_acc u p).
Proof.
  induction u; intros p; cbn [uint_bytes fold_left Pos.of_uint_acc]; try reflexivity; rewrite <- IHu; f_equal;
    unfold dval; lia.
Qed.

Lemma uint_value u : fold_left (fun a c => a * 10 + dval c) (uint_bytes u) 0 = Z.of_N (Pos.of_uint u).
Proof.
  induction u; cbn [uint_bytes fold_left Pos.of_uint]; try reflexivity;
    unfold dval at 2; cbn [Z.mul Z.add Z.sub Z.opp Z.pos_sub]; try exact IHu;
    match goal with |- fold_left _ _ ?z = _ => let z' := eval vm_compute in z in change z with z' end;
    rewrite uint_horner; reflexivity.
Qed.

Lemma dec_pos z : 0 <= z -> exists u, Z.to_int z = Decimal.Pos u /\ dec z = uint_bytes u /\ u <> Nil.
Proof.
  intros H. unfold dec. destruct z as [|p|p]; [| |lia].
  - exists (D0 Nil). now repeat split.
  - exists (Pos.to_uint p). repeat split. apply Unsigned.to_uint_nonnil.
Qed.

Lemma dec_value z : 0 <= z -> horner 10 dval (dec z) = z.
Proof.
  intros H. destruct (dec_pos z H) as (u & E & -> & _). unfold horner. rewrite uint_value.
  rewrite <- (DecimalZ.of_to z), E. reflexivity.
Qed.

Lemma dec_digits z : 0 <= z -> Forall (fun c => is_digit c = true) (dec z) /\ dec z <> [].
Proof.
  intros H. destruct (dec_pos z H) as (u & _ & -> & N). split.
  - pose proof (uint_bytes_digits u) as D. revert D. apply Forall_impl. intros c C.
    unfold is_digit. rewrite andb_true_iff, !Z.leb_le. lia.
  - destruct u; cbn; congruence.
Qed.

Lemma dec_no_byte z c : c <> 45 -> is_digit c = false -> ~ In c (dec z).
Proof.
  intros M D I. unfold dec in I.
  assert (forall u, ~ In c (uint_bytes u)) as U.
  { intros u J. pose proof (uint_bytes_digits u) as F. rewrite Forall_forall in F. specialize (F c J).
    unfold is_digit in D. rewrite andb_false_iff, !Z.leb_gt in D. lia. }
  destruct (Z.to_int z); [now apply (U d)|]. destruct I as [I|I]; [congruence|now apply (U d)].
Qed.

Lemma dtoi_dec z r : 0 <= z < big -> match r with [] => True | c :: _ => is_digit c = false end ->
  dtoi (dec z ++ r) = Some (z, r).
Proof.
  intros H R. destruct (dec_digits z ltac:(lia)) as [D N]. unfold dtoi. rewrite (span_app _ _ _ D R).
  rewrite dec_value by lia. destruct (dec z) eqn:E; [congruence|].
  replace (big <=? z) with false by (symmetry; apply Z.leb_gt; lia). reflexivity.
Qed.

(** No leading zero. *)
Lemma dec_lead z : 0 <= z < 256 -> (Nat.ltb 1 (length (dec z)) && (nth 0 (dec z) 0 =? 48)) = false.
Proof.
  intros H. pose proof (in_all_bytes z H) as I.
  assert (forallb (fun z => negb (Nat.ltb 1 (length (dec z)) && (nth 0 (dec z) 0 =? 48))) all_bytes = true) as A
    by (vm_compute; reflexivity).
  rewrite forallb_forall in A. specialize (A z I). now rewrite negb_true_iff in A.
Qed.

Lemma parse4_tail l : forall r, bytes_ok l = true ->
  r = [] -> parse4_loop false (length l) (flat_map (fun b => 46 :: dec b) l ++ r) = Some l.
Proof.
  induction l as [|b l IH]; intros r O ->; [reflexivity|].
  apply bytes_ok_cons in O. destruct O as [B O].
  cbn [flat_map length parse4_loop app]. change (46 =? 46) with true. cbv iota.
  rewrite <- app_assoc. rewrite dtoi_dec; [|unfold big; lia|].
  - replace (255 <? b) with false by (symmetry; apply Z.ltb_ge; lia).
    rewrite app_length, Nat.add_sub.
    rewrite app_nth1 by (destruct (dec_digits b ltac:(lia)) as [_ N]; destruct (dec b); [congruence|cbn; lia]).
    rewrite dec_lead by lia. rewrite IH by auto. reflexivity.
  - destruct l; cbn; reflexivity.
Qed.

Lemma join_flat (sep : Z) (x : bytes) (l : list bytes) :
  join [sep] (x :: l) = x ++ flat_map (fun y => sep :: y) l.
Proof.
  revert x. induction l as [|y l IH]; intros x; [cbn; now rewrite app_nil_r|].
  change (join [sep] (x :: y :: l)) with (x ++ [sep] ++ join [sep] (y :: l)).
  rewrite IH. reflexivity.
Qed.

Lemma flat_map_map {A B C} (f : A -> B) (g : B -> list C) l : flat_map g (map f l) = flat_map (fun a => g (f a)) l.
Proof. induction l; cbn; congruence. Qed.

Lemma parse4_text a : length a = 4%nat -> bytes_ok a = true -> parse4 (join [46] (map dec a)) = Some a.
Proof.
  intros L O. destruct a as [|b l]; [discriminate|]. injection L as L.
  apply bytes_ok_cons in O. destruct O as [B O].
  cbn [map]. rewrite join_flat, flat_map_map. unfold parse4. change 4%nat with (S 3). rewrite <- L. cbn [parse4_loop].
  rewrite dtoi_dec; [|unfold big; lia|destruct l; cbn; reflexivity].
  replace (255 <? b) with false by (symmetry; apply Z.ltb_ge; lia).
  rewrite app_length, Nat.add_sub.
  rewrite app_nth1 by (destruct (dec_digits b ltac:(lia)) as [_ N]; destruct (dec b); [congruence|cbn; lia]).
  rewrite dec_lead by lia.
  pose proof (parse4_tail l [] O eq_refl) as P. rewrite app_nil_r in P.
  rewrite P. reflexivity.
Qed.

(** Hexadecimal groups. *)
Lemma hexd_sweep :
  forallb (fun d => is_hexd (hexd d) && (hval (hexd d) =? d)) (map Z.of_nat (seq 0 16)) = true.
Proof. vm_compute. reflexivity. Qed.

Lemma hexd_facts d : 0 <= d < 16 -> is_hexd (hexd d) = true /\ hval (hexd d) = d.
Proof.
  intros H. pose proof hexd_sweep as S. rewrite forallb_forall in S.
  assert (In d (map Z.of_nat (seq 0 16))) as I.
  { apply in_map_iff. exists (Z.to_nat d). split; [lia|]. apply in_seq. lia. }
  specialize (S d I). rewrite andb_true_iff, Z.eqb_eq in S. exact S.
Qed.

Lemma hex16_facts v : 0 <= v < 65536 ->
  Forall (fun c => is_hexd c = true) (hex16 v) /\ horner 16 hval (hex16 v) = v /\ hex16 v <> [].
Proof.
  intros H. unfold hex16.
  assert (forall x, 0 <= x mod 16 < 16) as M by (intros x; apply Z.mod_pos_bound; lia).
  pose proof (Z.div_mod v 16 ltac:(lia)) as D1.
  pose proof (Z.div_mod (v / 16) 16 ltac:(lia)) as D2.
  pose proof (Z.div_mod (v / 256) 16 ltac:(lia)) as D3.
  rewrite Z.div_div in D2 by lia. change (16 * 16) with 256 in D2.
  rewrite Z.div_div in D3 by lia. change (256 * 16) with 4096 in D3.
  pose proof (M v). pose proof (M (v / 16)). pose proof (M (v / 256)).
  destruct (v <? 16) eqn:A; [rewrite Z.ltb_lt in A|rewrite Z.ltb_ge in A; destruct (v <? 256) eqn:B;
    [rewrite Z.ltb_lt in B|rewrite Z.ltb_ge in B; destruct (v <? 4096) eqn:C; [rewrite Z.ltb_lt in C|rewrite Z.ltb_ge in C]]].
  - destruct (hexd_facts v ltac:(lia)) as [F1 F2].
    split; [|split]; [repeat constructor; assumption| |discriminate]. unfold horner; cbn [fold_left]. lia.
  - destruct (hexd_facts (v / 16)) as [F1 F2]; [split; [apply Z.div_pos; lia|apply Z.div_lt_upper_bound; lia]|].
    destruct (hexd_facts (v mod 16) ltac:(lia)) as [G1 G2].
    split; [|split]; [repeat constructor; assumption| |discriminate]. unfold horner; cbn [fold_left]. lia.
  - destruct (hexd_facts (v / 256)) as [F1 F2]; [split; [apply Z.div_pos; lia|apply Z.div_lt_upper_bound; lia]|].
    destruct (hexd_facts (v / 16 mod 16) ltac:(lia)) as [G1 G2].
    destruct (hexd_facts (v mod 16) ltac:(lia)) as [K1 K2].
    split; [|split]; [repeat constructor; assumption| |discriminate]. unfold horner; cbn [fold_left]. lia.
  - destruct (hexd_facts (v / 4096)) as [F1 F2]; [split; [apply Z.div_pos; lia|apply Z.div_lt_upper_bound; lia]|].
    destruct (hexd_facts (v / 256 mod 16) ltac:(lia)) as [G1 G2].
    destruct (hexd_facts (v / 16 mod 16) ltac:(lia)) as [K1 K2].
    destruct (hexd_facts (v mod 16) ltac:(lia)) as [L1 L2].
    split; [|split]; [repeat constructor; assumption| |discriminate]. unfold horner; cbn [fold_left]. lia.
Qed.

Definition grp_ok (g : list Z) : Prop := Forall (fun v => 0 <= v < 65536) g.

Lemma xtoi_hex v r : 0 <= v < 65536 -> match r with [] => True | c :: _ => is_hexd c = false end ->
  xtoi (hex16 v ++ r) = Some (v, r).
Proof.
  intros H R. destruct (hex16_facts v H) as (D & V & N). unfold xtoi. rewrite (span_app _ _ _ D R), V.
  destruct (hex16 v) eqn:E; [congruence|].
  replace (big <=? v) with false by (symmetry; apply Z.leb_gt; unfold big; lia). reflexivity.
Qed.

(** Tail form of a joined text. *)
Definition gtail (g : list Z) : bytes := flat_map (fun v => colon :: hex16 v) g.
Lemma join_groups v g : join [colon] (map hex16 (v :: g)) = hex16 v ++ gtail g.
Proof. cbn [map]. now rewrite join_flat, flat_map_map. Qed.

Lemma hex16_head v : 0 <= v < 65536 -> exists c r, hex16 v = c :: r /\ c <> colon.
Proof.
  intros H. destruct (hex16_facts v H) as (D & _ & N). destruct (hex16 v) as [|c r]; [congruence|].
  exists c, r. split; [reflexivity|]. intros ->. inversion D. discriminate.
Qed.

(** A joined text up to its end. *)
Lemma parse6_final g : forall v k ell acc, 0 <= v < 65536 -> grp_ok g -> (length g < k)%nat ->
  parse6_loop k (hex16 v ++ gtail g) ell acc = Some (acc ++ v :: g, ell, []).
Proof.
  induction g as [|w g IH]; intros v k ell acc V G L; (destruct k as [|k]; [cbn in L; lia|]).
  - cbn [gtail flat_map parse6_loop]. rewrite app_nil_r.
    pose proof (xtoi_hex v [] V I) as X. rewrite app_nil_r in X. rewrite X.
    replace (65535 <? v) with false by (symmetry; apply Z.ltb_ge; lia). reflexivity.
  - inversion G; subst. cbn [parse6_loop].
    change (gtail (w :: g)) with (colon :: hex16 w ++ gtail g).
    rewrite xtoi_hex; [|assumption|reflexivity].
    replace (65535 <? v) with false by (symmetry; apply Z.ltb_ge; lia).
    change (colon =? 46) with false. change (colon =? colon) with true. cbv iota. cbn [negb].
    destruct (hex16_head w H1) as (c & r & E & C). 
    pose proof (IH w k ell (acc ++ [v]) H1 H2 ltac:(cbn in L; lia)) as P.
    rewrite E in P |- *. cbn [app] in P |- *.
    replace (c =? colon) with false by (symmetry; now apply Z.eqb_neq).
    rewrite P, <- app_assoc. reflexivity.
Qed.

(** A joined text up to a double colon. *)
Lemma parse6_ell g : forall v k acc rest, 0 <= v < 65536 -> grp_ok g -> (length g < k)%nat ->
  parse6_loop k (hex16 v ++ gtail g ++ colon :: colon :: rest) None acc
  = match rest with
    | [] => Some (acc ++ v :: g, Some (length (acc ++ v :: g)), [])
    | _ => parse6_loop (k - S (length g)) rest (Some (length (acc ++ v :: g))) (acc ++ v :: g)
    end.
Proof.
  induction g as [|w g IH]; intros v k acc rest V G L; (destruct k as [|k]; [cbn in L; lia|]).
  - cbn [gtail flat_map parse6_loop app]. rewrite xtoi_hex; [|assumption|reflexivity].
    replace (65535 <? v) with false by (symmetry; apply Z.ltb_ge; lia).
    change (colon =? 46) with false. change (colon =? colon) with true. cbv iota. cbn [negb].
    destruct rest; [reflexivity|]. cbn [length]. replace (S k - 1)%nat with k by lia. reflexivity.
  - inversion G; subst. cbn [parse6_loop].
    change (gtail (w :: g)) with (colon :: hex16 w ++ gtail g). cbn [app].
    rewrite xtoi_hex; [|assumption|reflexivity].
    replace (65535 <? v) with false by (symmetry; apply Z.ltb_ge; lia).
    change (colon =? 46) with false. change (colon =? colon) with true. cbv iota. cbn [negb].
    destruct (hex16_head w H1) as (c & r & E & C).
    pose proof (IH w k (acc ++ [v]) rest H1 H2 ltac:(cbn in L; lia)) as P.
    rewrite <- !app_assoc.
    rewrite E in P |- *. cbn [app] in P |- *.
    replace (c =? colon) with false by (symmetry; now apply Z.eqb_neq).
    rewrite P, <- !app_assoc. reflexivity.
Qed.

Lemma ungroup_groups l : bytes_ok l = true -> Nat.Even (length l) -> ungroup (groups l) = l.
Proof.
  remember (length l) as n eqn:N. revert l N.
  induction n as [n IH] using lt_wf_ind. intros l N O E.
  destruct l as [|a [|b l]]; [reflexivity|cbn in N; subst; destruct E; lia|].
  apply bytes_ok_cons in O. destruct O as [A O]. apply bytes_ok_cons in O. destruct O as [B O].
  cbn [groups ungroup]. rewrite Z.div_add_l, (Z.div_small b), Z.add_0_r by lia.
  rewrite Z.add_comm, Z.mod_add, Z.mod_small by lia.
  cbn [length] in N. rewrite (IH (length l)); try lia; auto.
  destruct E as [m E]. exists (m - 1)%nat. lia.
Qed.

Lemma groups_ok l : bytes_ok l = true -> grp_ok (groups l).
Proof.
  remember (length l) as n eqn:N. revert l N.
  induction n as [n IH] using lt_wf_ind. intros l N O.
  destruct l as [|a [|b l]]; [constructor|constructor|].
  apply bytes_ok_cons in O. destruct O as [A O]. apply bytes_ok_cons in O. destruct O as [B O].
  cbn [groups]. constructor; [lia|]. apply (IH (length l)); cbn in N; auto; lia.
Qed.

Lemma groups_len16 l : length l = 16%nat -> length (groups l) = 8%nat.
Proof. intros H. do 16 (destruct l as [|? l]; [discriminate|]). destruct l; [reflexivity|discriminate]. Qed.

(** The chosen run is a run of zeros. *)
Definition good_run (g : list Z) (o : option (nat * nat)) : Prop :=
  match o with
  | None => True
  | Some (i, n) => (2 <= n)%nat /\ (i + n <= length g)%nat /\ firstn n (skipn i g) = repeat 0 n
  end.

Lemma zero_run_spec g : (zero_run g <= length g)%nat /\ firstn (zero_run g) g = repeat 0 (zero_run g).
Proof.
  induction g as [|v g [A B]]; cbn [zero_run length]; [now split|].
  destruct (v =? 0) eqn:E; [|split; [lia|reflexivity]].
  rewrite Z.eqb_eq in E. subst. cbn [firstn repeat]. rewrite B. split; [lia|reflexivity].
Qed.

Lemma best_run_good g : forall pre best, good_run (pre ++ g) best ->
  good_run (pre ++ g) (best_run (length pre) g best).
Proof.
  induction g as [|v g IH]; intros pre best B; [exact B|].
  cbn [best_run].
  pose proof (zero_run_spec (v :: g)) as [Z1 Z2].
  set (z := zero_run (v :: g)) in *. clearbody z.
  set (cur := match best with Some (_, n) => n | None => O end). clearbody cur.
  specialize (IH (pre ++ [v])). rewrite <- app_assoc in IH. cbn [app] in IH.
  rewrite app_length, Nat.add_1_r in IH. apply IH.
  destruct (Nat.leb 2 z && Nat.ltb cur z) eqn:E; [|exact B].
  rewrite andb_true_iff, Nat.leb_le in E. cbn [good_run]. rewrite app_length.
  split; [lia|]. split; [lia|].
  rewrite skipn_app, skipn_all, Nat.sub_diag. cbn [app]. exact Z2.
Qed.

Lemma grp_ok_firstn n g : grp_ok g -> grp_ok (firstn n g).
Proof. intros H. revert n. induction H; intros [|n]; cbn; constructor; auto. apply IHForall. Qed.
Lemma grp_ok_skipn n g : grp_ok g -> grp_ok (skipn n g).
Proof. intros H. revert n. induction H; intros [|n]; cbn; try constructor; auto. Qed.

Lemma skip_add {A} (l : list A) : forall i n, skipn (i + n) l = skipn n (skipn i l).
Proof. induction l as [|x l IH]; intros [|i] n; cbn; auto. now rewrite skipn_nil. Qed.

Lemma parse6_text l : length l = 16%nat -> bytes_ok l = true -> parse6 (text6 (groups l)) = Some l.
Proof.
  intros L O. pose proof (groups_len16 l L) as G8. pose proof (groups_ok l O) as GO.
  assert (ungroup (groups l) = l) as U by (apply ungroup_groups; [assumption|rewrite L; exists 8%nat; lia]).
  rewrite <- U at 2. clear U. set (g := groups l) in *. clearbody g. clear l L O.
  pose proof (best_run_good g [] None I) as B. cbn [app length] in B.
  unfold text6. destruct (best_run 0 g None) as [[i n]|]; cbn [good_run] in B.
  - destruct B as (N2 & IN & Zr).
    assert (g = firstn i g ++ repeat 0 n ++ skipn (i + n) g) as SPL.
    { rewrite <- Zr, skip_add, firstn_skipn. now rewrite firstn_skipn. }
    pose proof (grp_ok_firstn i g GO) as A1. pose proof (grp_ok_skipn (i + n) g GO) as A2.
    assert (length (firstn i g) = i) as L1 by (apply firstn_length_le; lia).
    assert (length (skipn (i + n) g) = 8 - (i + n))%nat as L2 by (rewrite skipn_length; lia).
    set (a := firstn i g) in *. set (b := skipn (i + n) g) in *. clearbody a b. clear Zr.
    assert (forall acc e, length acc = i -> acc = a -> e = i ->
      parse6_end (acc ++ b, Some e, []) = Some (ungroup g)) as EN.
    { intros acc e La -> ->. unfold parse6_end.
      rewrite app_length, La, L2. replace (Nat.ltb (i + (8 - (i + n))) 8) with true by (symmetry; apply Nat.ltb_lt; lia).
      rewrite firstn_app, firstn_all2, skipn_app, skipn_all2 by lia. rewrite La, Nat.sub_diag.
      cbn [firstn skipn app]. rewrite app_nil_r. f_equal. f_equal.
      replace (8 - (i + (8 - (i + n))))%nat with n by lia. symmetry. exact SPL. }
    destruct a as [|v a].
    + cbn [map join app]. cbn [length] in L1. subst i.
      cbn [parse6]. change (colon =? colon) with true. cbn [andb].
      destruct b as [|w b].
      * cbn [map join]. rewrite SPL. cbn [length] in L2. replace n with 8%nat by lia. reflexivity.
      * rewrite join_groups.
        assert (0 <= w < 65536) as H1 by (inversion A2; assumption).
        assert (grp_ok b) as H2 by (inversion A2; assumption).
        rewrite parse6_final; auto; [|cbn [length] in L2; lia].
        destruct (hex16_head w H1) as (c & r & E & C). rewrite E. cbn [app].
        apply (EN [] 0%nat); reflexivity.
    + assert (0 <= v < 65536) as H1 by (inversion A1; assumption).
      assert (grp_ok a) as H2 by (inversion A1; assumption).
      rewrite join_groups, <- app_assoc. cbn [app].
      destruct (hex16_head v H1) as (c & r & E & C).
      assert (exists c2 r2, hex16 v ++ gtail a ++ colon :: colon :: join [colon] (map hex16 b) = c :: c2 :: r2) as (c2 & r2 & HD).
      { rewrite E. destruct r as [|c2 r]; [|cbn; eauto]. destruct a; cbn; eauto. }
      rewrite HD. cbn [parse6]. replace (c =? colon) with false by (symmetry; now apply Z.eqb_neq). cbn [andb].
      rewrite <- HD. rewrite parse6_ell; auto; [|cbn [length] in L1; lia].
      destruct b as [|w b].
      * cbn [map join]. rewrite <- (app_nil_r (v :: a)) at 1. apply EN; auto.
      * rewrite join_groups.
        assert (0 <= w < 65536) as H3 by (inversion A2; assumption).
        assert (grp_ok b) as H4 by (inversion A2; assumption).
        destruct (hex16_head w H3) as (d & s & E2 & C2).
        rewrite E2. cbn [app]. change (d :: s ++ gtail b) with ((d :: s) ++ gtail b). rewrite <- E2.
        cbn [length] in L1, L2. rewrite parse6_final by (auto; cbn [length]; lia).
        apply EN; auto.
  - destruct g as [|v g]; [discriminate|]. assert (0 <= v < 65536) as H1 by (inversion GO; assumption).
    assert (grp_ok g) as H2 by (inversion GO; assumption).
    rewrite join_groups.
    destruct (hex16_head v H1) as (c & r & E & C).
    assert (exists c2 r2, hex16 v ++ gtail g = c :: c2 :: r2) as (c2 & r2 & HD).
    { rewrite E. destruct r as [|c2 r]; [|cbn; eauto]. destruct g; [discriminate|]. cbn; eauto. }
    rewrite HD. cbn [parse6]. replace (c =? colon) with false by (symmetry; now apply Z.eqb_neq). cbn [andb].
    rewrite <- HD. rewrite parse6_final; auto; [|cbn in G8; lia].
    unfold parse6_end. cbn [app]. rewrite G8. reflexivity.
Qed.

(** The two address forms are told apart by the colon. *)
Lemma span_split f s : forall a r, span f s = (a, r) -> s = a ++ r /\ Forall (fun c => f c = true) a.
Proof.
  induction s as [|c s IH]; cbn [span]; intros a r H.
  - injection H as <- <-. split; [reflexivity|constructor].
  - destruct (f c) eqn:F.
    + destruct (span f s) as [a' r'] eqn:S. injection H as <- <-. destruct (IH a' r' eq_refl) as [-> A].
      split; [reflexivity|constructor; auto].
    + injection H as <- <-. split; [reflexivity|constructor].
Qed.

Lemma dtoi_split s n r : dtoi s = Some (n, r) -> exists a, s = a ++ r /\ Forall (fun c => is_digit c = true) a /\
  a <> [] /\ n = horner 10 dval a.
Proof.
  unfold dtoi. destruct (span is_digit s) as [a r'] eqn:S. destruct (span_split _ _ _ _ S) as [-> A].
  destruct a as [|c a]; [discriminate|]. destruct (big <=? _); [discriminate|].
  intros H. injection H as <- <-. exists (c :: a). repeat split; auto. discriminate.
Qed.

Lemma parse4_no_colon k : forall first s l, parse4_loop first k s = Some l -> ~ In colon s.
Proof.
  induction k as [|k IH]; intros first s l H; cbn [parse4_loop] in H.
  - destruct s; [now intros []|discriminate].
  - assert (forall s1, match dtoi s1 with
          | None => None
          | Some (n, r) =>
              if 255 <? n then None
              else if Nat.ltb 1 (length s1 - length r) && (nth 0 s1 0 =? 48) then None
              else match parse4_loop false k r with Some l => Some (n :: l) | None => None end
          end = Some l -> ~ In colon s1) as A.
    { intros s1 E. destruct (dtoi s1) as [[n r]|] eqn:D; [|discriminate].
      destruct (255 <? n); [discriminate|]. destruct (_ && _); [discriminate|].
      destruct (parse4_loop false k r) eqn:P; [|discriminate].
      destruct (dtoi_split _ _ _ D) as (a & -> & F & _ & _). rewrite in_app_iff. intros [I|I].
      - rewrite Forall_forall in F. specialize (F _ I). discriminate.
      - now apply (IH _ _ _ P). }
    destruct first; [now apply A|].
    destruct s as [|c r]; [discriminate|]. destruct (c =? 46) eqn:C; [|discriminate].
    rewrite Z.eqb_eq in C. subst. intros [I|I]; [discriminate|]. now apply (A r).
Qed.

Lemma in_join c sep l : In c (join [sep] l) -> c = sep \/ exists x, In x l /\ In c x.
Proof.
  destruct l as [|x l]; [intros []|]. rewrite join_flat, in_app_iff, in_flat_map.
  intros [I|(y & Y & [I|I])].
  - right. exists x. split; [now left|assumption].
  - now left.
  - right. exists y. split; [now right|assumption].
Qed.

Lemma in_gtext c g : grp_ok g -> In c (join [colon] (map hex16 g)) -> c = colon \/ is_hexd c = true.
Proof.
  intros G I. destruct (in_join _ _ _ I) as [->|(x & X & C)]; [now left|]. right.
  apply in_map_iff in X. destruct X as (v & <- & V). unfold grp_ok in G. rewrite Forall_forall in G.
  destruct (hex16_facts v (G v V)) as [F _]. rewrite Forall_forall in F. now apply F.
Qed.

Lemma text6_bytes g c : grp_ok g -> In c (text6 g) -> c = colon \/ is_hexd c = true.
Proof.
  intros G. unfold text6. destruct (best_run 0 g None) as [[i n]|]; [|now apply in_gtext].
  rewrite !in_app_iff. intros [I|[I|I]].
  - apply (in_gtext c (firstn i g)); auto. now apply grp_ok_firstn.
  - destruct I as [<-|[<-|[]]]; now left.
  - apply (in_gtext c (skipn (i + n) g)); auto. now apply grp_ok_skipn.
Qed.

Lemma text6_colon g : (2 <= length g)%nat -> In colon (text6 g).
Proof.
  intros L. unfold text6. destruct (best_run 0 g None) as [[i n]|].
  - rewrite !in_app_iff. right; left; now left.
  - destruct g as [|v [|w g]]; cbn in L; try lia. rewrite join_groups, in_app_iff. right. now left.
Qed.

Lemma plain_to4 ip : plain_addr ip ->
  to4 ip = if Nat.eqb (length ip) 4 then Some ip else None.
Proof.
  intros (O & [L|L] & N); rewrite L; cbn [Nat.eqb].
  - now apply to4_len4.
  - apply to4_not_mapped; auto.
Qed.

(** The text of a plain prefix. *)
Definition plain_text (ip : bytes) : bytes :=
  if Nat.eqb (length ip) 4 then join [46] (map dec ip) else text6 (groups ip).

Lemma ipnet_text_plain ip p : plain_addr ip -> 0 <= p <= addr_bits ip ->
  ipnet_text (mkNet ip (cidr_mask p (addr_bits ip))) = plain_text ip ++ [47] ++ dec p.
Proof.
  intros A P. pose proof (plain_to4 ip A) as T. destruct A as (O & L & N).
  assert (length ip = 4 \/ length ip = 16)%nat as L' by exact L.
  unfold addr_bits in *.
  pose proof (cidr_mask_len p (length ip) L' P) as ML.
  unfold ipnet_text, network_number_and_mask. cbn [nip nmask]. rewrite T, ML.
  pose proof (cidr_mask_ok p (length ip) L' P) as CM.
  assert (simple_mask_length (cidr_mask p (8 * Z.of_nat (length ip))) = p) as SM.
  { rewrite CM. apply simple_mask_cidr. lia. }
  unfold plain_text.
  destruct L' as [E|E]; rewrite E in *; cbn [Nat.eqb] in *;
    set (m := cidr_mask p _) in *; clearbody m.
  - destruct m as [|b m]; [discriminate|]. destruct ip as [|a ip]; [discriminate|]. rewrite E. cbn [Nat.eqb].
    rewrite SM. replace (p =? -1) with false by (symmetry; apply Z.eqb_neq; lia).
    unfold ip_text. rewrite T. reflexivity.
  - rewrite E. cbn [Nat.eqb]. destruct m as [|b m]; [discriminate|]. destruct ip as [|a ip]; [discriminate|].
    rewrite SM. replace (p =? -1) with false by (symmetry; apply Z.eqb_neq; lia).
    unfold ip_text. rewrite T, E. reflexivity.
Qed.

Lemma plain_text_no_slash ip : plain_addr ip -> Forall (fun c => negb (c =? 47) = true) (plain_text ip).
Proof.
  intros (O & L & _). apply Forall_forall. intros c I. rewrite negb_true_iff, Z.eqb_neq. intros ->.
  unfold plain_text in I. destruct (Nat.eqb (length ip) 4).
  - destruct (in_join _ _ _ I) as [E|(x & X & C)]; [discriminate|].
    apply in_map_iff in X. destruct X as (v & <- & V). revert C. apply dec_no_byte; [discriminate|reflexivity].
  - destruct (text6_bytes _ _ (groups_ok ip O) I); discriminate.
Qed.

Lemma parse_plain_text ip : plain_addr ip ->
  match parse4 (plain_text ip) with Some a => Some a | None => parse6 (plain_text ip) end = Some ip.
Proof.
  intros (O & [L|L] & _); unfold plain_text; rewrite L; cbn [Nat.eqb].
  - now rewrite parse4_text.
  - destruct (parse4 (text6 (groups ip))) eqn:P.
    + exfalso. apply (parse4_no_colon _ _ _ _ P). apply text6_colon. rewrite groups_len16 by assumption. lia.
    + now apply parse6_text.
Qed.

(** Reading back what was printed gives the prefix, its host bits cleared. *)
Lemma cidr_roundtrip ip p : plain_addr ip -> 0 <= p <= addr_bits ip ->
  let m := cidr_mask p (addr_bits ip) in
  parse_cidr (ipnet_text (mkNet ip m)) = Some (mkNet (and_bytes ip m) m).
Proof.
  intros A P m. unfold m. rewrite ipnet_text_plain by assumption. unfold parse_cidr.
  rewrite span_app; [|now apply plain_text_no_slash|reflexivity]. cbn [app].
  rewrite parse_plain_text by assumption.
  pose proof (dtoi_dec p []) as D. rewrite app_nil_r in D.
  assert (addr_bits ip <= 128) by (destruct A as (_ & [L|L] & _); unfold addr_bits; rewrite L; cbn; lia).
  rewrite D; [|unfold big; lia|exact I].
  fold (addr_bits ip). replace (addr_bits ip <? p) with false by (symmetry; apply Z.ltb_ge; lia). reflexivity.
Qed.

Lemma and_bytes_range ip : forall m lo hi, range_loop ip m = Some (lo, hi) -> and_bytes ip m = lo.
Proof.
  induction ip as [|x ip IH]; intros [|k m] lo hi; cbn [range_loop and_bytes]; intros H; try discriminate; try congruence.
  - destruct (range_loop ip m) as [[lo' hi']|] eqn:E; [|discriminate]. injection H as <- <-.
    f_equal. now apply (IH _ _ _ E).
Qed.
