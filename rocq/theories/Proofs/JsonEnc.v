(** What Marshal writes. *)
From Coq Require Import List ZArith Lia Bool String Decimal DecimalFacts DecimalPos DecimalZ.
From Verif.Model Require Import Base Str Der NetText Json.
From Verif.Spec Require Import JsonSpec StateSpec.
From Verif.Proofs Require Import StrProofs NetTextProofs JsonStr JsonProofs JsonVal.
Import ListNotations.
Open Scope Z_scope.

(** ** Numbers *)
Lemma uint_lead : forall u, u <> Nil -> unorm u = u -> uint_bytes u = [48] \/ hd 0 (uint_bytes u) <> 48.
Proof.
  intros u N U. destruct u as [|u|u|u|u|u|u|u|u|u|u]; [contradiction| |right; cbn; lia..].
  left. unfold unorm in U. cbn [nzhead] in U. destruct (nzhead u) as [|q|q|q|q|q|q|q|q|q|q] eqn:E; try discriminate U.
  - injection U as <-. reflexivity.
  - exfalso. exact (nzhead_nonzero u q E).
Qed.
Lemma dec_lead : forall z, 0 <= z -> dec z = [48] \/ hd 0 (dec z) <> 48.
Proof.
  intros z H. destruct (dec_pos z H) as (u & E & -> & N). apply uint_lead; [exact N|].
  pose proof (DecimalZ.to_of (Z.to_int z)) as T. rewrite DecimalZ.of_to, E in T. cbn [norm] in T. injection T as T. symmetry. exact T.
Qed.
Lemma dec_neg : forall z, z < 0 -> dec z = 45 :: dec (- z).
Proof. intros [|p|p] H; try lia. reflexivity. Qed.
Lemma dec_is_digits : forall z, 0 <= z -> digits (dec z).
Proof.
  intros z H. destruct (dec_digits z H) as (A & B). split; [exact B|]. revert A. apply Forall_impl. intros c C.
  unfold is_digit in C. rewrite andb_true_iff, !Z.leb_le in C. exact C.
Qed.
Lemma dec_number : forall z, jnumber (dec z).
Proof.
  assert (P : forall z, 0 <= z -> dec z = [48] \/ (digits (dec z) /\ hd 0 (dec z) <> 48)).
  { intros z H. destruct (dec_lead z H) as [E|E]; [left; exact E|right; split; [apply dec_is_digits, H|exact E]]. }
  intros z. destruct (Z_lt_le_dec z 0) as [H|H].
  - exists [45], (dec (- z)), [], []. rewrite dec_neg by exact H. split; [rewrite !app_nil_r; reflexivity|].
    split; [right; reflexivity|]. split; [apply P; lia|]. split; left; reflexivity.
  - exists [], (dec z), [], []. split; [rewrite !app_nil_r; reflexivity|].
    split; [left; reflexivity|]. split; [apply P; lia|]. split; left; reflexivity.
Qed.
Lemma dec_writes : forall z, writes z (JNum (dec z)).
Proof.
  intros z. exists (dec z). split; [reflexivity|]. destruct (Z_lt_le_dec z 0) as [H|H].
  - right. exists (dec (- z)). split; [apply dec_neg, H|]. split; [apply dec_is_digits; lia|].
    pose proof (dec_value (- z) ltac:(lia)) as V. unfold horner, dval in V. unfold value_of. lia.
  - left. split; [apply dec_is_digits, H|]. pose proof (dec_value z H) as V. unfold horner, dval in V. unfold value_of. lia.
Qed.

(** ** Texts *)
Lemma ascii_unicode : forall s, ascii s -> unicode s.
Proof.
  intros s A. induction A as [|c s C A IH]; [constructor|].
  replace (c :: s) with (utf8 c ++ s) by (unfold utf8; rewrite (proj2 (Z.ltb_lt c 128)) by lia; reflexivity).
  constructor; [split; lia|exact IH].
Qed.
Lemma dec_ascii : forall z, ascii (dec z).
Proof.
  assert (P : forall z, 0 <= z -> ascii (dec z)).
  { intros z H. destruct (dec_is_digits z H) as (_ & F). revert F. apply Forall_impl. intros; lia. }
  intros z. destruct (Z_lt_le_dec z 0) as [H|H]; [rewrite dec_neg by exact H; constructor; [lia|apply P; lia]|apply P, H].
Qed.

(** ** Values which Marshal writes well *)
Inductive writable : nat -> json -> Prop :=
| wr_null n : writable n JNull
| wr_bool n b : writable n (JBool b)
| wr_num n t : jnumber t -> writable n (JNum t)
| wr_str n s : unicode s -> writable n (JStr s)
| wr_arr n l : Forall (writable n) l -> writable (S n) (JArr l)
| wr_obj n l : Forall (fun m => unicode (fst m) /\ writable n (snd m)) l -> writable (S n) (JObj l).

Lemma ws_nil : ws []. Proof. constructor. Qed.
Lemma elems_written : forall n l, l <> [] -> Forall (fun v => jtext n v (enc_json v)) l -> jelems n l (enc_list (map enc_json l)).
Proof.
  intros n l NE F. induction F as [|v l V F IH]; [contradiction|]. destruct l as [|w l].
  - cbn [map enc_list]. pose proof (je_one n v [] (enc_json v) [] ws_nil ws_nil V) as J. cbn [app] in J. rewrite app_nil_r in J. exact J.
  - change (enc_list (map enc_json (v :: w :: l))) with (enc_json v ++ 44 :: enc_list (map enc_json (w :: l))).
    exact (je_more n v [] (enc_json v) [] (w :: l) _ ws_nil ws_nil V ltac:(discriminate) (IH ltac:(discriminate))).
Qed.
Lemma members_written : forall n l, l <> [] -> Forall (fun m => jstring (fst m) (enc_str (fst m)) /\ jtext n (snd m) (enc_json (snd m))) l ->
  jmembers n l (enc_list (map (fun m => enc_str (fst m) ++ [58] ++ enc_json (snd m)) l)).
Proof.
  intros n l NE F. induction F as [|[k v] l (K & V) F IH]; [contradiction|]. cbn [fst snd] in K, V. destruct l as [|w l].
  - cbn [map enc_list fst snd]. pose proof (jm_one n k v [] (enc_str k) [] [] (enc_json v) [] ws_nil ws_nil ws_nil ws_nil K V) as J.
    cbn [app] in *. rewrite app_nil_r in J. exact J.
  - set (f := fun m : bytes * json => enc_str (fst m) ++ [58] ++ enc_json (snd m)) in *.
    change (enc_list (map f ((k, v) :: w :: l))) with ((enc_str k ++ [58] ++ enc_json v) ++ 44 :: enc_list (map f (w :: l))).
    pose proof (jm_more n k v [] (enc_str k) [] [] (enc_json v) [] (w :: l) _ ws_nil ws_nil ws_nil ws_nil K V ltac:(discriminate) (IH ltac:(discriminate))) as J.
    cbn [app] in J. rewrite <- app_assoc. cbn [app]. exact J.
Qed.
Lemma written : forall n v, writable n v -> jtext n v (enc_json v).
Proof.
  induction n as [|n IH]; intros v W; inversion W as [m|m b|m t T|m s U|m l F|m l F]; subst; try (constructor; fail).
  - destruct b; constructor.
  - constructor. exact T.
  - constructor. apply enc_str_grammar, U.
  - destruct b; constructor.
  - constructor. exact T.
  - constructor. apply enc_str_grammar, U.
  - destruct l as [|w l]; [exact (jt_arr0 n [] ws_nil)|]. apply jt_arr; [discriminate|]. apply elems_written; [discriminate|].
    revert F. apply Forall_impl. exact IH.
  - destruct l as [|w l]; [exact (jt_obj0 n [] ws_nil)|]. apply jt_obj; [discriminate|]. apply members_written; [discriminate|].
    revert F. apply Forall_impl. intros [k x] (A & B). split; [apply enc_str_grammar, A|apply IH, B].
Qed.
Lemma written_read : forall n v, Z.of_nat n <= 10000 -> writable n v -> parse_json (enc_json v) = JOk v [].
Proof.
  intros n v N W. apply (document_read n v _ N). exists [], (enc_json v), []. split; [apply ws_nil|]. split; [apply ws_nil|].
  split; [apply written, W|]. rewrite app_nil_r. reflexivity.
Qed.
