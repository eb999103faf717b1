(** The file of the RRDP state: any texts, and any file that is read without
    error. *)
From Coq Require Import List ZArith Lia Bool String Permutation.
From Verif.Model Require Import Base Str Der NetText Json Output RrdpXml StateFile.
From Verif.Spec Require Import JsonSpec StateSpec.
From Verif.Proofs Require Import StrProofs NetTextProofs OutputProofs JsonStr JsonProofs JsonVal JsonEnc JsonSound StateProofs.
Import ListNotations.
Open Scope Z_scope.

(** ** Writing any bytes *)
Lemma enc_body_char : forall c s, scalar c -> exists j, enc_body 0 true (utf8 c ++ s) = j ++ enc_body 0 true s /\ jchar c j.
Proof.
  intros c s H. destruct (Z.ltb_spec c 128) as [L|L].
  - exists (enc_byte c). split; [|apply enc_byte_char; destruct H; lia].
    rewrite utf8_ascii by exact L. cbn [app enc_body]. rewrite (proj2 (Z.ltb_lt c 128)) by lia. reflexivity.
  - destruct (line_sep (utf8 c ++ s)) as [d|] eqn:LS.
    + pose proof (line_sep_utf8 c s d H LS L) as Q. exists (92 :: 117 :: [50; 48; 50; hexc (d mod 16)]). split.
      { rewrite <- (enc_body_0 s). destruct Q as [(-> & ->)|(-> & ->)]; reflexivity. }
      apply jc_u; [exact H|].
      destruct Q as [(-> & ->)|(-> & ->)]; [exists 2, 0, 2, 8|exists 2, 0, 2, 9]; do 4 eexists;
        (split; [reflexivity|]); repeat split; try (left; cbn; lia).
    + exists (utf8 c). split; [|apply jc_plain; [exact H|lia..]].
      destruct (utf8_shape c H L s) as [(b & x & E & B & R)|[(b & x & y & E & B & R)|(b & x & y & z & E & B & R)]];
        rewrite E in *; cbn [app] in *; cbn [enc_body]; rewrite (proj2 (Z.ltb_ge b 128)) by lia; rewrite R, LS; reflexivity.
Qed.
Lemma enc_body_any : forall s, bytes_ok s = true -> exists t, replaced s t /\ jchars t (enc_body 0 true s).
Proof.
  intros s. remember (length s) as n eqn:N. assert (L : (length s <= n)%nat) by lia. clear N. revert s L.
  induction n as [|n IH]; intros s L O; destruct s as [|b s]; try (exists []; split; constructor); [cbn [length] in L; lia|].
  cbn [length] in L.
  assert (CH : forall c r, scalar c -> b :: s = utf8 c ++ r -> exists t, replaced (b :: s) t /\ jchars t (enc_body 0 true (b :: s))).
  { intros c r Sc E. rewrite E in *. destruct (enc_body_char c r Sc) as (j & EJ & J).
    assert (LR : (length r <= n)%nat).
    { assert (Q : length (b :: s) = length (utf8 c ++ r)) by now rewrite E. rewrite app_length in Q. cbn [length] in Q.
      assert (1 <= length (utf8 c))%nat; [|lia]. unfold utf8. destruct (c <? 128), (c <? 2048), (c <? 65536); cbn [length]; lia. }
    assert (OR : bytes_ok r = true).
    { unfold bytes_ok in *. rewrite forallb_app in O. now apply andb_prop in O. }
    destruct (IH r LR OR) as (t & R & JT). exists (utf8 c ++ t). split; [now apply re_char|]. rewrite EJ. now apply js_cons. }
  assert (Ob : 0 <= b < 256) by (cbn [bytes_ok forallb] in O; apply andb_prop in O; destruct O as [O _]; unfold byte_ok in O; lia).
  destruct (Z.ltb_spec b 128) as [B|B].
  { apply (CH b s); [unfold scalar; lia|]. rewrite utf8_ascii by exact B. reflexivity. }
  destruct (rune_more (b :: s)) as [k|] eqn:R.
  { destruct (rune_some b s k B R) as (c & r & Sc & _ & E & _). exact (CH c r Sc E). }
  assert (OS : bytes_ok s = true) by (cbn [bytes_ok forallb] in O; now apply andb_prop in O).
  destruct (IH s ltac:(lia) OS) as (t & Rt & J). exists (utf8 65533 ++ t). split; [apply re_byte; [now apply rune_none|exact Rt]|].
  cbn [enc_body]. rewrite (proj2 (Z.ltb_ge b 128)) by lia. rewrite R. exact (js_cons 65533 (92 :: 117 :: [102; 102; 102; 100]) t _ half_char J).
Qed.

Lemma replaced_unicode : forall s t, replaced s t -> unicode t.
Proof. intros s t R. induction R as [|c s t Sc R IH|b s t N R IH]; constructor; try assumption. unfold scalar; lia. Qed.
Lemma replaced_same : forall s, unicode s -> replaced s s.
Proof. intros s U. induction U; constructor; assumption. Qed.
Lemma utf8_prefix : forall c d s t, scalar c -> scalar d -> utf8 c ++ s = utf8 d ++ t -> c = d /\ s = t.
Proof.
  intros c d s t Sc Sd E.
  assert (L : length (utf8 c) = length (utf8 d)).
  { destruct (Z.ltb_spec c 128) as [A|A], (Z.ltb_spec d 128) as [B|B].
    - now rewrite !utf8_ascii by assumption.
    - exfalso. rewrite (utf8_ascii c A) in E. destruct (utf8_shape d Sd B t) as [(b & x & F & G & _)|[(b & x & y & F & G & _)|(b & x & y & z & F & G & _)]];
        rewrite F in E; cbn [app] in E; injection E as E1 _; lia.
    - exfalso. rewrite (utf8_ascii d B) in E. destruct (utf8_shape c Sc A s) as [(b & x & F & G & _)|[(b & x & y & F & G & _)|(b & x & y & z & F & G & _)]];
        rewrite F in E; cbn [app] in E; injection E as E1 _; lia.
    - destruct (utf8_shape c Sc A s) as [(b & x & F & G & H)|[(b & x & y & F & G & H)|(b & x & y & z & F & G & H)]];
        destruct (utf8_shape d Sd B t) as [(b' & x' & F' & G' & H')|[(b' & x' & y' & F' & G' & H')|(b' & x' & y' & z' & F' & G' & H')]];
        rewrite E, H' in H; try discriminate H; rewrite F, F'; reflexivity. }
  assert (Q : utf8 c = utf8 d /\ s = t).
  { clear Sc Sd. revert L E. generalize (utf8 c), (utf8 d). induction b as [|x b IH]; intros [|y b'] L E; try discriminate L; [auto|].
    cbn [app length] in *. injection E as -> E. injection L as L. destruct (IH b' L E) as (-> & ->). auto. }
  destruct Q as (Q & ->). split; [|reflexivity]. clear E L. destruct Sc as (C & _), Sd as (D & _). revert Q. unfold utf8.
  assert (X : forall z, z = ((z / 262144) * 64 + z / 4096 mod 64) * 4096 + (z / 64 mod 64) * 64 + z mod 64).
  { intros z. change 262144 with (4096 * 64). change 4096 with (64 * 64). rewrite <- !Z.div_div by lia. Z.div_mod_to_equations; lia. }
  assert (Y : forall z, z = (z / 4096) * 4096 + (z / 64 mod 64) * 64 + z mod 64).
  { intros z. change 4096 with (64 * 64). rewrite <- !Z.div_div by lia. Z.div_mod_to_equations; lia. }
  assert (W : forall z, z = (z / 64) * 64 + z mod 64) by (intros z; Z.div_mod_to_equations; lia).
  destruct (c <? 128), (d <? 128), (c <? 2048), (d <? 2048), (c <? 65536), (d <? 65536); intros Q; try discriminate Q;
    pose proof (f_equal (fun l => nth 0 l 0) Q) as Q0; pose proof (f_equal (fun l => nth 1 l 0) Q) as Q1;
    pose proof (f_equal (fun l => nth 2 l 0) Q) as Q2; pose proof (f_equal (fun l => nth 3 l 0) Q) as Q3; cbn [nth] in Q0, Q1, Q2, Q3; clear Q C D;
    first [exact Q0|pose proof (W c); pose proof (W d); lia|pose proof (Y c); pose proof (Y d); lia|pose proof (X c); pose proof (X d); lia].
Qed.
Lemma replaced_is : forall s t, unicode s -> replaced s t -> t = s.
Proof.
  intros s t U. revert t. induction U as [|c s Sc U IH]; intros t R.
  - inversion R as [|d s' t' Sd R' E1 E2|]; subst; [reflexivity|]. exfalso. unfold utf8 in E1. destruct (d <? 128), (d <? 2048), (d <? 65536); discriminate E1.
  - inversion R as [E1 E2|d s' t' Sd R' E1 E2|b s' t' N R' E1 E2]; subst.
    + exfalso. unfold utf8 in E1. destruct (c <? 128), (c <? 2048), (c <? 65536); discriminate E1.
    + apply utf8_prefix in E1; [|assumption..]. destruct E1 as (-> & ->). f_equal. now apply IH.
    + exfalso. apply N. exists c, s. split; assumption || now rewrite E1.
Qed.

(** The bytes that are written for a text, read back. *)
Definition mend (s : bytes) : bytes := match p_chars (enc_body 0 true s ++ [34]) with Some (t, _) => t | None => [] end.
Lemma mend_spec : forall s, bytes_ok s = true -> replaced s (mend s) /\ jstring (mend s) (enc_str s).
Proof.
  intros s O. destruct (enc_body_any s O) as (t & R & J). unfold mend. rewrite (p_chars_grammar _ _ J []). split; [exact R|].
  exists (enc_body 0 true s). split; [exact J|reflexivity].
Qed.
Lemma mend_same : forall s, unicode s -> bytes_ok s = true -> mend s = s.
Proof. intros s U O. apply replaced_is; [exact U|]. now apply mend_spec. Qed.
Fixpoint mend_json (v : json) : json :=
  match v with
  | JStr s => JStr (mend s)
  | JArr l => JArr (map mend_json l)
  | JObj l => JObj (map (fun m => (mend (fst m), mend_json (snd m))) l)
  | _ => v
  end.
Inductive sound_json : nat -> json -> Prop :=
| so_null n : sound_json n JNull
| so_bool n b : sound_json n (JBool b)
| so_num n t : jnumber t -> sound_json n (JNum t)
| so_str n s : bytes_ok s = true -> sound_json n (JStr s)
| so_arr n l : Forall (sound_json n) l -> sound_json (S n) (JArr l)
| so_obj n l : Forall (fun m => bytes_ok (fst m) = true /\ sound_json n (snd m)) l -> sound_json (S n) (JObj l).
Lemma elems_any : forall n l, l <> [] -> Forall (fun v => jtext n (mend_json v) (enc_json v)) l ->
  jelems n (map mend_json l) (enc_list (map enc_json l)).
Proof.
  intros n l NE F. induction F as [|v l V F IH]; [contradiction|]. destruct l as [|w l].
  - cbn [map enc_list]. pose proof (je_one n (mend_json v) [] (enc_json v) [] ws_nil ws_nil V) as J. cbn [app] in J. rewrite app_nil_r in J. exact J.
  - change (enc_list (map enc_json (v :: w :: l))) with (enc_json v ++ 44 :: enc_list (map enc_json (w :: l))).
    exact (je_more n (mend_json v) [] (enc_json v) [] (map mend_json (w :: l)) _ ws_nil ws_nil V ltac:(discriminate) (IH ltac:(discriminate))).
Qed.
Lemma members_any : forall n l, l <> [] -> Forall (fun m => jstring (mend (fst m)) (enc_str (fst m)) /\ jtext n (mend_json (snd m)) (enc_json (snd m))) l ->
  jmembers n (map (fun m => (mend (fst m), mend_json (snd m))) l) (enc_list (map (fun m => enc_str (fst m) ++ [58] ++ enc_json (snd m)) l)).
Proof.
  intros n l NE F. induction F as [|[k v] l (K & V) F IH]; [contradiction|]. cbn [fst snd] in K, V. destruct l as [|w l].
  - cbn [map enc_list fst snd]. pose proof (jm_one n (mend k) (mend_json v) [] (enc_str k) [] [] (enc_json v) [] ws_nil ws_nil ws_nil ws_nil K V) as J.
    cbn [app] in *. rewrite app_nil_r in J. exact J.
  - set (f := fun m : bytes * json => enc_str (fst m) ++ [58] ++ enc_json (snd m)) in *. set (g := fun m => (mend (fst m), mend_json (snd m))) in *.
    change (enc_list (map f ((k, v) :: w :: l))) with ((enc_str k ++ [58] ++ enc_json v) ++ 44 :: enc_list (map f (w :: l))).
    pose proof (jm_more n (mend k) (mend_json v) [] (enc_str k) [] [] (enc_json v) [] (map g (w :: l)) _ ws_nil ws_nil ws_nil ws_nil K V ltac:(discriminate) (IH ltac:(discriminate))) as J.
    cbn [app] in J. rewrite <- app_assoc. cbn [app]. exact J.
Qed.
Lemma written_any : forall n v, sound_json n v -> jtext n (mend_json v) (enc_json v).
Proof.
  induction n as [|n IH]; intros v W; inversion W as [m|m b|m t T|m s U|m l F|m l F]; subst; cbn [mend_json]; try (constructor; fail).
  - destruct b; constructor.
  - constructor. exact T.
  - constructor. apply mend_spec, U.
  - destruct b; constructor.
  - constructor. exact T.
  - constructor. apply mend_spec, U.
  - destruct l as [|w l]; [exact (jt_arr0 n [] ws_nil)|]. apply jt_arr; [discriminate|]. apply elems_any; [discriminate|].
    revert F. apply Forall_impl. exact IH.
  - destruct l as [|w l]; [exact (jt_obj0 n [] ws_nil)|]. apply jt_obj; [discriminate|]. apply members_any; [discriminate|].
    revert F. apply Forall_impl. intros [k x] (A & B). split; [apply mend_spec, A|apply IH, B].
Qed.
Lemma any_document : forall n v, sound_json n v -> jdocument n (mend_json v) (enc_json v).
Proof. intros n v W. exists [], (enc_json v), []. split; [apply ws_nil|]. split; [apply ws_nil|]. split; [now apply written_any|]. cbn [app]. now rewrite app_nil_r. Qed.

(** ** States with any texts *)
Definition mend_info (i : rrdp_info) : rrdp_info := mkInfo (mend (ri_rsync i)) (mend (ri_path i)) (mend (ri_session i)) (ri_serial i).
Lemma mend_info_json : forall i, mend_json (info_json i) = info_json (mend_info i).
Proof.
  intros i. unfold info_json. cbn [mend_json map fst snd]. unfold mend_info. cbn [ri_rsync ri_path ri_session ri_serial].
  change (mend (str "rsync")) with (str "rsync"). change (mend (str "path")) with (str "path").
  change (mend (str "sessionid")) with (str "sessionid"). change (mend (str "serial")) with (str "serial"). reflexivity.
Qed.
Lemma info_sound : forall i, byte_info i -> sound_json 1 (info_json i).
Proof. intros i (A & B & C & _). apply so_obj. repeat constructor; cbn [fst snd]; try assumption; apply dec_number. Qed.
Lemma info_read_any : forall i, - 2 ^ 63 <= ri_serial i < 2 ^ 63 -> store_info (info_json i) = (i, true).
Proof.
  intros i S. unfold info_json, store_info. cbn [fold_left].
  rewrite sf_rsync, sf_path, sf_session, sf_serial. cbn [store_int]. rewrite parse_dec by exact S. destruct i. reflexivity.
Qed.

Lemma aset_in : forall A (m : list (bytes * A)) k a k' a', In (k', a') (aset m k a) <-> (k' = k /\ a' = a) \/ (k' <> k /\ In (k', a') m).
Proof.
  intros A m k a k' a'. unfold aset. rewrite in_app_iff, filter_In. cbn [In fst]. split.
  - intros [(I & B)|[E|[]]].
    + right. split; [|exact I]. intros ->. rewrite (proj2 (beq_eq k k) eq_refl) in B. discriminate B.
    + left. injection E as -> ->. auto.
  - intros [(-> & ->)|(N & I)]; [right; left; reflexivity|]. left. split; [exact I|]. destruct (beq k' k) eqn:B; [apply beq_eq in B; contradiction|reflexivity].
Qed.
Lemma aset_keys : forall A (m : list (bytes * A)) k a k', In k' (map fst (aset m k a)) <-> k' = k \/ In k' (map fst m).
Proof.
  intros A m k a k'. rewrite !in_map_iff. split.
  - intros ([x y] & <- & I). apply aset_in in I. destruct I as [(-> & ->)|(N & I)]; [now left|right]. exists (x, y). auto.
  - intros [-> |([x y] & <- & I)]; [exists (k, a); split; [reflexivity|apply aset_in; auto]|]. cbn [fst].
    destruct (beq x k) eqn:B; [apply beq_eq in B; subst; exists (k, a); split; [reflexivity|apply aset_in; auto]|].
    exists (x, y). split; [reflexivity|]. apply aset_in. right. split; [|exact I]. intros ->. rewrite (proj2 (beq_eq k k) eq_refl) in B. discriminate B.
Qed.
Lemma aset_nodup : forall A (m : list (bytes * A)) k a, NoDup (map fst m) -> NoDup (map fst (aset m k a)).
Proof.
  intros A m k a N. unfold aset. rewrite map_app. cbn [map fst].
  assert (F : NoDup (map fst (filter (fun e => negb (beq (fst e) k)) m))).
  { clear a. induction m as [|[x y] m IH]; [constructor|]. inversion N as [|? ? N1 N2]; subst. cbn [filter fst].
    destruct (negb (beq x k)); [|now apply IH]. cbn [map fst]. constructor; [|now apply IH]. intro I. apply N1.
    apply in_map_iff in I. destruct I as (e & <- & I). apply filter_In in I. apply in_map. tauto. }
  apply (Permutation_NoDup (l := k :: map fst (filter (fun e => negb (beq (fst e) k)) m))); [apply Permutation_cons_append|].
  constructor; [|exact F]. intro I. apply in_map_iff in I. destruct I as ([x y] & E & I). cbn [fst] in E. subst x. apply filter_In in I. cbn [fst] in I.
  rewrite (proj2 (beq_eq k k) eq_refl) in I. destruct I as (_ & I). discriminate I.
Qed.

Definition put_member (st : list (bytes * rrdp_info) * bool) (e : bytes * json) : list (bytes * rrdp_info) * bool :=
  let '(i, o) := store_info (snd e) in (aset (fst st) (fst e) i, snd st && o).
Lemma store_map_obj : forall l, store_map (JObj l) = let '(m, ok) := fold_left put_member l ([], true) in (Some m, ok).
Proof. reflexivity. Qed.
Lemma put_members : forall l m ok m' ok', fold_left put_member l (m, ok) = (m', ok') -> NoDup (map fst m) ->
  NoDup (map fst m') /\ (forall k, In k (map fst m') <-> In k (map fst m) \/ In k (map fst l)) /\
  (ok' = true <-> ok = true /\ forall k x, In (k, x) l -> snd (store_info x) = true) /\
  forall k i, In (k, i) m' -> (In (k, i) m /\ ~ In k (map fst l)) \/
    exists l1 x l2, l = l1 ++ (k, x) :: l2 /\ ~ In k (map fst l2) /\ fst (store_info x) = i.
Proof.
  induction l as [|[a x] l IH]; intros m ok m' ok' H N; cbn [fold_left] in H.
  - injection H as <- <-. split; [exact N|]. split; [intros k; cbn [map In]; tauto|]. split; [cbn [In]; intuition|]. intros k i I. left. auto.
  - unfold put_member at 2 in H. cbn [fst snd] in H. destruct (store_info x) as [i o] eqn:SI.
    destruct (IH _ _ _ _ H (aset_nodup _ m a i N)) as (N' & K & O & C). split; [exact N'|]. split; [|split].
    + intros k. rewrite K, aset_keys. cbn [map fst In]. intuition congruence.
    + rewrite O, andb_true_iff. cbn [In]. split.
      * intros ((O1 & O2) & F). split; [exact O1|]. intros k y [E|I]; [injection E as <- <-; now rewrite SI|exact (F k y I)].
      * intros (O1 & F). split; [split; [exact O1|]|].
        -- specialize (F a x (or_introl eq_refl)). rewrite SI in F. exact F.
        -- intros k y I. exact (F k y (or_intror I)).
    + intros k j I. destruct (C k j I) as [(IM & NI)|(l1 & y & l2 & -> & N2 & E)].
      * apply aset_in in IM. destruct IM as [(-> & ->)|(NE & IM)].
        -- right. exists [], x, l. split; [reflexivity|]. split; [exact NI|]. now rewrite SI.
        -- left. split; [exact IM|]. cbn [map fst In]. intros [E|E]; [congruence|contradiction].
      * right. exists ((a, x) :: l1), y, l2. auto.
Qed.

Theorem state_any : forall m, NoDup (map fst m) -> (forall k i, In (k, i) m -> bytes_ok k = true /\ byte_info i) ->
  exists m', load_text (save_text m) = (Some m', true) /\ NoDup (map fst m') /\
    (forall k i, In (k, i) m -> exists k', replaced k k' /\ In k' (map fst m')) /\
    (forall k' i', In (k', i') m' -> exists k i, In (k, i) m /\ replaced k k' /\ replaced_info i i').
Proof.
  intros m N B. pose proof (sorted_perm m N) as P.
  assert (B' : forall k i, In (k, i) (sorted_state m) -> bytes_ok k = true /\ byte_info i).
  { intros k i I. apply B. exact (Permutation_in _ P I). }
  assert (G : sound_json 2 (state_json (sorted_state m))).
  { apply so_obj. apply Forall_forall. intros x I. apply in_map_iff in I. destruct I as ([k i] & <- & I).
    destruct (B' k i I) as (U & V). split; [exact U|apply info_sound, V]. }
  set (l := map (fun e => (mend (fst e), info_json (mend_info (snd e)))) (sorted_state m)).
  assert (E : mend_json (state_json (sorted_state m)) = JObj l).
  { unfold state_json, l. cbn [mend_json]. rewrite map_map. cbn [fst snd]. reflexivity. }
  unfold load_text. rewrite save_eq, (document_read 2 _ _ ltac:(lia) (any_document _ _ G)), E, store_map_obj.
  destruct (fold_left put_member l ([], true)) as [m' ok] eqn:F. destruct (put_members l [] true m' ok F (NoDup_nil _)) as (N' & K & O & C).
  assert (IL : forall k x, In (k, x) l -> exists k0 i, In (k0, i) (sorted_state m) /\ k = mend k0 /\ x = info_json (mend_info i)).
  { intros k x I. unfold l in I. apply in_map_iff in I. destruct I as ([k0 i] & Q & I). injection Q as <- <-. exists k0, i. auto. }
  assert (OK : ok = true).
  { apply O. split; [reflexivity|]. intros k x I. destruct (IL k x I) as (k0 & i & I0 & _ & ->). destruct (B' k0 i I0) as (_ & _ & _ & _ & S).
    rewrite info_read_any; [reflexivity|exact S]. }
  subst ok. exists m'. split; [reflexivity|]. split; [exact N'|]. split.
  - intros k i I. apply (Permutation_in _ (Permutation_sym P)) in I. exists (mend k). split; [apply mend_spec, (B' k i I)|]. apply K. right.
    unfold l. rewrite map_map. cbn [fst]. apply in_map_iff. exists (k, i). auto.
  - intros k' i' I. destruct (C k' i' I) as [([] & _)|(l1 & x & l2 & EL & _ & EX)].
    destruct (IL k' x) as (k & i & I0 & -> & ->); [rewrite EL; apply in_or_app; right; left; reflexivity|].
    destruct (B' k i I0) as (Bk & B1 & B2 & B3 & S). rewrite info_read_any in EX by exact S. cbn [fst] in EX. subst i'.
    exists k, i. split; [exact (Permutation_in _ P I0)|]. split; [apply mend_spec, Bk|]. unfold replaced_info, mend_info. cbn [ri_rsync ri_path ri_session ri_serial].
    repeat split; apply mend_spec; assumption.
Qed.

(** ** Files read without error *)
Definition small (t : bytes) : Prop := Forall (fun c => 97 <= c <= 122) t.
Lemma fold_name_folds : forall s t, fold_name s = t -> folds s t.
Proof.
  intros s. remember (length s) as n eqn:N. assert (L : (length s <= n)%nat) by lia. clear N. revert s L.
  induction n as [|n IH]; intros s L t H.
  { destruct s; [cbn in H; subst t; constructor|cbn [length] in L; lia]. }
  assert (One : forall b r, (length r <= n)%nat -> folds (b :: r) ((if in_range 65 90 b then b + 32 else b) :: fold_name r)).
  { intros b r Lr. destruct (in_range 65 90 b) eqn:R.
    - apply in_range_spec in R. replace b with (b + 32 - 32) at 1 by lia. apply fo_upper; [lia|now apply IH].
    - apply fo_same; [|now apply IH]. intro Q. rewrite in_range_true in R by exact Q. discriminate R. }
  destruct s as [|b r]; [cbn in H; subst t; constructor|]. subst t. cbn [length] in L. cbn [fold_name].
  destruct r as [|c r1]; [exact (One b [] ltac:(cbn; lia))|].
  destruct ((b =? 197) && (c =? 191)) eqn:E1.
  { apply andb_prop in E1. destruct E1 as [X Y]. apply Z.eqb_eq in X, Y. subst b c. apply (fo_long r1). apply IH; [cbn [length] in L; lia|reflexivity]. }
  destruct r1 as [|d r2]; [exact (One b [c] ltac:(lia))|].
  destruct ((b =? 226) && (c =? 132) && (d =? 170)) eqn:E2; [|exact (One b (c :: d :: r2) ltac:(lia))].
  apply andb_prop in E2. destruct E2 as [X Z]. apply andb_prop in X. destruct X as [X Y]. apply Z.eqb_eq in X, Y, Z. subst b c d.
  apply (fo_kelvin r2). apply IH; [cbn [length] in L; lia|reflexivity].
Qed.
Lemma folds_fold_name : forall s t, folds s t -> small t -> fold_name s = t.
Proof.
  intros s t F. induction F as [|c s t C F IH|c s t C F IH|s t F IH|s t F IH]; intros S; [reflexivity|..]; inversion S as [|? ? S1 S2]; subst; specialize (IH S2).
  - assert (N1 : (c =? 197) = false) by lia. assert (N2 : (c =? 226) = false) by lia.
    assert (R : in_range 65 90 c = false) by (apply in_range_false; lia).
    cbn [fold_name]. rewrite N1, N2, R. cbn [andb]. destruct s as [|x [|y s]]; cbn [fold_name] in IH |- *; now rewrite <- IH.
  - assert (N1 : (c - 32 =? 197) = false) by lia. assert (N2 : (c - 32 =? 226) = false) by lia.
    assert (R : in_range 65 90 (c - 32) = true) by (apply in_range_true; lia).
    cbn [fold_name]. rewrite N1, N2, R. cbn [andb]. replace (c - 32 + 32) with c by lia. destruct s as [|x [|y s]]; cbn [fold_name] in IH |- *; now rewrite <- IH.
  - change (utf8 383) with [197; 191]. cbn [app fold_name Z.eqb Pos.eqb andb]. now rewrite IH.
  - change (utf8 8490) with [226; 132; 170]. cbn [app fold_name Z.eqb Pos.eqb andb]. now rewrite IH.
Qed.
Lemma named_iff : forall f k, small (str f) -> (named f k <-> beq (fold_name k) (str f) = true).
Proof.
  intros f k S. rewrite beq_eq. split; [intros F; now apply folds_fold_name|]. intros E. now apply fold_name_folds.
Qed.

Lemma parse_int_writes : forall t n, jnumber t -> RrdpXml.parse_int64 t = Some n -> reads_int (JNum t) n.
Proof.
  intros t n J H. unfold RrdpXml.parse_int64 in H.
  assert (D : forall d, d <> [] -> forallb is_digit d = true -> digits d).
  { intros d N F. split; [exact N|]. rewrite forallb_forall in F. apply Forall_forall. intros x I. specialize (F x I). unfold is_digit in F. lia. }
  assert (V : forall d, horner 10 dval d = value_of d) by reflexivity.
  destruct (number_head t J) as (c & r & -> & C). destruct (Z.eqb_spec c 45) as [->|N].
  - destruct r as [|x r]; [discriminate H|]. set (q := x :: r) in *. destruct (forallb is_digit q) eqn:F; [|discriminate H]. rewrite V in H.
    destruct ((- 2 ^ 63 <=? -1 * value_of q) && (-1 * value_of q <? 2 ^ 63)) eqn:R; [|discriminate H]. assert (E : n = -1 * value_of q) by congruence. subst n. split; [|lia].
    exists (45 :: q). split; [reflexivity|]. right. exists q. split; [reflexivity|]. split; [apply D; [discriminate|exact F]|lia].
  - rewrite (proj2 (Z.eqb_neq c 43)) in H by lia. set (q := c :: r) in *. destruct (forallb is_digit q) eqn:F; [|discriminate H]. rewrite V in H.
    destruct ((- 2 ^ 63 <=? 1 * value_of q) && (1 * value_of q <? 2 ^ 63)) eqn:R; [|discriminate H]. assert (E : n = 1 * value_of q) by congruence. subst n. split; [|lia].
    exists q. split; [reflexivity|]. left. split; [apply D; [discriminate|exact F]|lia].
Qed.

Section Fold.
  Context {A St : Type}.
  Variables (step : St -> bytes * json -> St) (get : St -> A) (fine : St -> bool) (f : string) (reads : json -> A -> Prop) (L : list (bytes * json)).
  Hypothesis small_f : small (str f).
  Hypothesis kept_fine : forall st e, fine (step st e) = true -> fine st = true.
  Hypothesis other : forall st k v, fine (step st (k, v)) = true -> ~ named f k -> get (step st (k, v)) = get st.
  Hypothesis this : forall st k v, In (k, v) L -> fine (step st (k, v)) = true -> named f k ->
    (v = JNull /\ get (step st (k, v)) = get st) \/ reads v (get (step st (k, v))).
  Lemma fine_back : forall l st, fine (fold_left step l st) = true -> fine st = true.
  Proof. induction l as [|e l IH]; intros st H; [exact H|]. cbn [fold_left] in H. exact (kept_fine _ _ (IH _ H)). Qed.
  Lemma member_fold : forall l st, incl l L -> fine (fold_left step l st) = true ->
    member_is reads (get st) f l (get (fold_left step l st)).
  Proof.
    induction l as [|[k v] l IH]; intros st IL H; [split; [intros k v []|left; split; [reflexivity|intros k v []]]|].
    cbn [fold_left] in *. assert (Fi : fine (step st (k, v)) = true) by exact (fine_back _ _ H).
    destruct (IH _ (fun e I => IL e (or_intror I)) H) as (T & C). clear IH.
    assert (N : named f k \/ ~ named f k).
    { destruct (beq (fold_name k) (str f)) eqn:B; [left|right]; rewrite (named_iff f k small_f), B; [reflexivity|discriminate]. }
    destruct N as [N|N].
    - destruct (this st k v (IL _ (or_introl eq_refl)) Fi N) as [(-> & E)|R].
      + rewrite E in C. split.
        * intros k' v' [Q|I] N'; [injection Q as <- <-; now left|exact (T k' v' I N')].
        * destruct C as [(E' & AN)|(l1 & k0 & v0 & l2 & -> & N0 & R0 & AN)].
          -- left. split; [exact E'|]. intros k' v' [Q|I] N'; [injection Q as <- <-; reflexivity|exact (AN k' v' I N')].
          -- right. exists ((k, JNull) :: l1), k0, v0, l2. auto.
      + split.
        * intros k' v' [Q|I] N'; [injection Q as <- <-; right; eauto|exact (T k' v' I N')].
        * right. destruct C as [(E' & AN)|(l1 & k0 & v0 & l2 & -> & N0 & R0 & AN)].
          -- exists [], k, v, l. rewrite E'. auto.
          -- exists ((k, v) :: l1), k0, v0, l2. auto.
    - rewrite (other st k v Fi N) in C. split.
      + intros k' v' [Q|I] N'; [injection Q as <- <-; contradiction|exact (T k' v' I N')].
      + destruct C as [(E' & AN)|(l1 & k0 & v0 & l2 & -> & N0 & R0 & AN)].
        * left. split; [exact E'|]. intros k' v' [Q|I] N'; [injection Q as <- <-; contradiction|exact (AN k' v' I N')].
        * right. exists ((k, v) :: l1), k0, v0, l2. auto.
  Qed.
End Fold.

Lemma small_str : forall f, forallb (fun c => (97 <=? c) && (c <=? 122)) (str f) = true -> small (str f).
Proof. intros f H. apply Forall_forall. intros c I. rewrite forallb_forall in H. specialize (H c I). lia. Qed.
Lemma store_field_cases : forall i ok k v,
  (named "rsync" k /\ store_field (i, ok) (k, v) = let '(x, o) := store_str v (ri_rsync i) in (mkInfo x (ri_path i) (ri_session i) (ri_serial i), ok && o)) \/
  (named "path" k /\ store_field (i, ok) (k, v) = let '(x, o) := store_str v (ri_path i) in (mkInfo (ri_rsync i) x (ri_session i) (ri_serial i), ok && o)) \/
  (named "sessionid" k /\ store_field (i, ok) (k, v) = let '(x, o) := store_str v (ri_session i) in (mkInfo (ri_rsync i) (ri_path i) x (ri_serial i), ok && o)) \/
  (named "serial" k /\ store_field (i, ok) (k, v) = let '(x, o) := store_int v (ri_serial i) in (mkInfo (ri_rsync i) (ri_path i) (ri_session i) x, ok && o)) \/
  (~ named "rsync" k /\ ~ named "path" k /\ ~ named "sessionid" k /\ ~ named "serial" k /\ store_field (i, ok) (k, v) = (i, ok)).
Proof.
  intros i ok k v. unfold store_field. cbn [fst snd].
  rewrite !named_iff by (apply small_str; vm_compute; reflexivity).
  destruct (beq (fold_name k) (str "rsync")) eqn:E1; [left; auto|].
  destruct (beq (fold_name k) (str "path")) eqn:E2; [right; left; auto|].
  destruct (beq (fold_name k) (str "sessionid")) eqn:E3; [right; right; left; auto|].
  destruct (beq (fold_name k) (str "serial")) eqn:E4; [right; right; right; left; auto|].
  right; right; right; right. repeat split; discriminate.
Qed.
Lemma named_one : forall f g k, small (str f) -> small (str g) -> named f k -> named g k -> str f = str g.
Proof. intros f g k Sf Sg F G. apply named_iff in F; [|exact Sf]. apply named_iff in G; [|exact Sg]. apply beq_eq in F, G. congruence. Qed.
Lemma store_str_spec : forall v cur x, store_str v cur = (x, true) -> (v = JNull /\ x = cur) \/ reads_text v x.
Proof. intros v cur x H. destruct v; try discriminate H; injection H as <-; [left; auto|right; reflexivity]. Qed.
Lemma store_int_spec : forall v cur x, (forall t, v = JNum t -> jnumber t) -> store_int v cur = (x, true) -> (v = JNull /\ x = cur) \/ reads_int v x.
Proof.
  intros v cur x J H. destruct v as [|b|t|s|l|l]; try discriminate H; [injection H as <-; left; auto|]. cbn [store_int] in H.
  destruct (RrdpXml.parse_int64 t) as [n|] eqn:P; [|discriminate H]. injection H as <-. right. apply parse_int_writes; [now apply J|exact P].
Qed.

Lemma fine_step : forall st e, snd (store_field st e) = true -> snd st = true.
Proof.
  intros [i ok] [k v] H. cbn [snd].
  destruct (store_field_cases i ok k v) as [(_ & E)|[(_ & E)|[(_ & E)|[(_ & E)|(_ & _ & _ & _ & E)]]]]; rewrite E in H; clear E; [..|exact H];
    match type of H with snd (let '(_, _) := ?q in _) = _ => destruct q end; cbn [snd] in H; now apply andb_prop in H.
Qed.

Ltac name_clash :=
  match goal with
  | A : named ?f ?k, B : named ?g ?k |- _ =>
      exfalso; pose proof (named_one f g k ltac:(apply small_str; vm_compute; reflexivity) ltac:(apply small_str; vm_compute; reflexivity) A B) as Clash; vm_compute in Clash; discriminate Clash
  end.
Ltac other_case :=
  intros [i ok] k v Fi N;
  destruct (store_field_cases i ok k v) as [(M & E)|[(M & E)|[(M & E)|[(M & E)|(_ & _ & _ & _ & E)]]]]; rewrite E; clear E; try contradiction; try reflexivity;
  match goal with |- context [let '(_, _) := ?q in _] => destruct q end; reflexivity.
Ltac this_case J :=
  intros [i ok] k v IL Fi N;
  destruct (store_field_cases i ok k v) as [(M & E)|[(M & E)|[(M & E)|[(M & E)|(N1 & N2 & N3 & N4 & E)]]]]; try contradiction; try name_clash; rewrite E in Fi |- *; clear E;
  match goal with |- context [let '(_, _) := ?q in _] =>
    let x := fresh "x" in let o := fresh "o" in let Q := fresh "Q" in destruct q as [x o] eqn:Q;
    cbn [fst snd ri_rsync ri_path ri_session ri_serial] in *; apply andb_prop in Fi; destruct Fi as [_ Fi]; rewrite Fi in Q;
    first [exact (store_str_spec _ _ _ Q)|exact (store_int_spec _ _ _ (fun t => J k v t IL) Q)]
  end.

Lemma fields_read : forall l, (forall k v t, In (k, v) l -> v = JNum t -> jnumber t) ->
  forall i, fold_left store_field l (zero_info, true) = (i, true) -> means_info (JObj l) i.
Proof.
  intros l J i H.
  assert (F : snd (fold_left store_field l (zero_info, true)) = true) by now rewrite H.
  right. exists l. split; [reflexivity|].
  assert (E : i = fst (fold_left store_field l (zero_info, true))) by now rewrite H. subst i. clear H. split; [|split; [|split]].
  - refine (member_fold store_field (fun st => ri_rsync (fst st)) snd "rsync" reads_text l _ fine_step _ _ l (zero_info, true) (incl_refl l) F);
      [apply small_str; vm_compute; reflexivity|other_case|this_case J].
  - refine (member_fold store_field (fun st => ri_path (fst st)) snd "path" reads_text l _ fine_step _ _ l (zero_info, true) (incl_refl l) F);
      [apply small_str; vm_compute; reflexivity|other_case|this_case J].
  - refine (member_fold store_field (fun st => ri_session (fst st)) snd "sessionid" reads_text l _ fine_step _ _ l (zero_info, true) (incl_refl l) F);
      [apply small_str; vm_compute; reflexivity|other_case|this_case J].
  - refine (member_fold store_field (fun st => ri_serial (fst st)) snd "serial" reads_int l _ fine_step _ _ l (zero_info, true) (incl_refl l) F);
      [apply small_str; vm_compute; reflexivity|other_case|this_case J].
Qed.

Lemma members_texts : forall n l s, jmembers n l s -> forall k v, In (k, v) l -> exists s', jtext n v s'.
Proof.
  intros n l s M. induction M as [n k v w1 sk w2 w3 s w4 W1 W2 W3 W4 K V|n k v w1 sk w2 w3 s w4 l t W1 W2 W3 W4 K V NE M IH]; intros k' v' [E|I];
    try (injection E as <- <-; eauto); [destruct I|eauto].
Qed.
Lemma object_texts : forall n l s, jtext n (JObj l) s -> forall k v, In (k, v) l -> exists n' s', jtext n' v s'.
Proof.
  intros n l s T k v I. inversion T as [| | | | | | |m w W|m l' t NE M]; subst; [destruct I|]. destruct (members_texts _ _ _ M k v I) as (s' & Q). eauto.
Qed.
Lemma info_means : forall v n s i, jtext n v s -> store_info v = (i, true) -> means_info v i.
Proof.
  intros v n s i T H. destruct v as [| | | | |l]; try discriminate H; [injection H as <-; left; auto|]. cbn [store_info] in H.
  apply fields_read; [|exact H]. intros k v t I ->. destruct (object_texts _ _ _ T _ _ I) as (n' & s' & Q). now inversion Q; subst.
Qed.
Theorem loaded : forall s m, load_text s = (m, true) ->
  exists n v s', Z.of_nat n <= 10000 /\ repaired s s' /\ jdocument n v s' /\ means_state v m.
Proof.
  intros s m H. unfold load_text in H. destruct (parse_json s) as [v r| |] eqn:P; try discriminate H.
  destruct (document_sound _ _ _ P) as (_ & n & s' & N & R & D). exists n, v, s'. split; [exact N|]. split; [exact R|]. split; [exact D|].
  destruct D as (w1 & t & w2 & _ & _ & T & _). destruct v as [| | | | |l]; try discriminate H; [injection H as <-; left; auto|].
  rewrite store_map_obj in H. destruct (fold_left put_member l ([], true)) as [m' ok] eqn:F. injection H as <- ->.
  destruct (put_members l [] true m' true F (NoDup_nil _)) as (ND & K & O & C). destruct O as (O & _). destruct (O eq_refl) as (_ & AL). clear O.
  right. exists l, m'. split; [reflexivity|]. split; [reflexivity|]. split; [exact ND|]. split.
  { intros k. rewrite K. cbn [map In]. tauto. }
  assert (Q : forall k x, In (k, x) l -> means_info x (fst (store_info x))).
  { intros k x I. destruct (object_texts _ _ _ T k x I) as (n' & s0 & TX). apply (info_means x n' s0); [exact TX|].
    pose proof (AL k x I) as A. destruct (store_info x); cbn [fst snd] in *; now subst. }
  split; [intros k x I; exists (fst (store_info x)); exact (Q k x I)|].
  intros k i I. destruct (C k i I) as [([] & _)|(l1 & x & l2 & -> & NI & <-)]. exists l1, x, l2. split; [reflexivity|]. split; [exact NI|].
  apply (Q k). apply in_or_app. right; left; reflexivity.
Qed.

(** ** Lists with any texts *)
Lemma list_sound : forall l, byte_list l -> sound_json 3 (list_json l).
Proof.
  intros l (S1 & S2 & D). apply so_obj. constructor; [|constructor; [|constructor]]; cbn [fst snd].
  - split; [reflexivity|]. apply so_obj.
    repeat match goal with |- Forall _ (_ ++ _) => apply Forall_app; split end.
    + repeat constructor; cbn [fst snd]; apply dec_number.
    + destruct (_ =? 0); repeat constructor; cbn [fst snd]; apply dec_number.
    + unfold omit_str. destruct (m_sign (l_meta l)) as [|c s]; repeat constructor; cbn [fst snd]; exact S1.
    + unfold omit_str. destruct (m_signdate (l_meta l)) as [|c s]; repeat constructor; cbn [fst snd]; exact S2.
  - split; [reflexivity|]. apply so_arr. apply Forall_forall. intros x I. apply in_map_iff in I. destruct I as (r & <- & I).
    rewrite Forall_forall in D. destruct (D r I) as (U1 & U2 & U3). apply so_obj. apply Forall_app. split.
    + repeat constructor; cbn [fst snd]; try assumption; apply dec_number.
    + destruct (j_ta r) as [|c t]; repeat constructor; cbn [fst snd]; exact U3.
Qed.
Definition mend_roa (r : roajson) : roajson := mkJ (mend (j_prefix r)) (j_len r) (mend (j_asn r)) (mend (j_ta r)).
Definition mend_list (l : roalist) : roalist :=
  mkList (mkMeta (m_counts (l_meta l)) (m_generated (l_meta l)) (m_valid (l_meta l)) (mend (m_sign (l_meta l))) (mend (m_signdate (l_meta l))))
    (map mend_roa (l_data l)).
Lemma mend_empty : forall s, bytes_ok s = true -> mend s = [] -> s = [].
Proof.
  intros s O E. destruct (mend_spec s O) as (R & _). rewrite E in R. inversion R as [E1|c a b Sc R' E1 E2|b a t N R' E1 E2]; [reflexivity|exfalso..].
  - unfold utf8 in E2. destruct (c <? 128), (c <? 2048), (c <? 65536); discriminate E2.
Qed.
Lemma mend_list_json : forall l, byte_list l -> mend_json (list_json l) = list_json (mend_list l).
Proof.
  intros l (S1 & S2 & D). unfold list_json. cbn [mend_json map fst snd]. change (mend (str "metadata")) with (str "metadata"). change (mend (str "roas")) with (str "roas").
  assert (M : mend_json (meta_json (l_meta l)) = meta_json (l_meta (mend_list l))).
  { unfold meta_json, mend_list. cbn [l_meta m_counts m_generated m_valid m_sign m_signdate mend_json]. rewrite !map_app. cbn [map fst snd].
    f_equal. f_equal. f_equal.
    - destruct (m_valid (l_meta l) =? 0); reflexivity.
    - assert (O : forall k s, mend (str k) = str k -> bytes_ok s = true -> map (fun m => (mend (fst m), mend_json (snd m))) (omit_str (str k) s) = omit_str (str k) (mend s)).
      { intros k s K B. unfold omit_str. destruct s as [|c s]; [reflexivity|]. destruct (mend (c :: s)) as [|c' s'] eqn:Q; [apply mend_empty in Q; [discriminate Q|exact B]|].
        cbn [map fst snd mend_json]. rewrite K, Q. reflexivity. }
      rewrite !O by (assumption || (vm_compute; reflexivity)). reflexivity. }
  rewrite M. f_equal. f_equal. f_equal. f_equal. f_equal. cbn [mend_list l_data]. rewrite !map_map. apply map_ext_in. intros r I.
  rewrite Forall_forall in D. destruct (D r I) as (_ & _ & B). unfold roa_json, mend_roa. cbn [mend_json j_prefix j_len j_asn j_ta]. rewrite map_app. cbn [map fst snd mend_json].
  f_equal. f_equal. destruct (j_ta r) as [|c s]; [reflexivity|]. destruct (mend (c :: s)) as [|c' s'] eqn:Q; [apply mend_empty in Q; [discriminate Q|exact B]|].
  cbn [map fst snd mend_json]. change (mend (str "ta")) with (str "ta"). rewrite Q. reflexivity.
Qed.
Theorem list_any : forall l, byte_list l -> exists l' v, replaced_list l l' /\ shows_list l' v /\
  jdocument 3 v (output_text l) /\ jdocument 3 v (served_text l) /\
  (forall n v', Z.of_nat n <= 10000 -> jdocument n v' (output_text l) \/ jdocument n v' (served_text l) -> v' = v).
Proof.
  intros l G. exists (mend_list l), (list_json (mend_list l)). pose proof (written_any 3 _ (list_sound l G)) as W. rewrite (mend_list_json l G) in W. split.
  { destruct G as (S1 & S2 & D). unfold replaced_list, mend_list. cbn [l_meta l_data m_counts m_generated m_valid m_sign m_signdate].
    do 3 (split; [reflexivity|]). split; [apply mend_spec, S1|]. split; [apply mend_spec, S2|].
    clear - D. induction D as [|r d (B1 & B2 & B3) D IH]; [constructor|]. cbn [map]. constructor; [|exact IH].
    unfold replaced_entry, mend_roa. cbn [j_prefix j_len j_asn j_ta]. repeat split; apply mend_spec; assumption. }
  split; [apply list_shown|].
  assert (D1 : jdocument 3 (list_json (mend_list l)) (output_text l)).
  { exists [], (output_text l), []. split; [apply ws_nil|]. split; [apply ws_nil|]. split; [exact W|]. rewrite app_nil_r. reflexivity. }
  assert (D2 : jdocument 3 (list_json (mend_list l)) (served_text l)).
  { exists [], (output_text l), [10]. split; [apply ws_nil|]. split; [constructor; [cbn; tauto|constructor]|]. split; [exact W|]. reflexivity. }
  split; [exact D1|]. split; [exact D2|]. intros n v' N [H|H].
  - apply (document_read n v' _ N) in H. apply (document_read 3) in D1; [|lia]. congruence.
  - apply (document_read n v' _ N) in H. apply (document_read 3) in D2; [|lia]. congruence.
Qed.
