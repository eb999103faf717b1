(** C86: the file of the RRDP state; C87: the text of the list of ROAs. *)
From Coq Require Import List ZArith Lia Bool String Permutation.
From Verif.Model Require Import Base Str NetIP NetText Json Output StateFile.
From Verif.Spec Require Import JsonSpec StateSpec OutputSpec.
From Verif.Proofs Require Import StrProofs JsonStr JsonVal JsonEnc StateProofs ListText JsonSound StateAny.
Import ListNotations.
Open Scope Z_scope.

(** C86. What was saved is loaded again: the same entries, without error. *)
Theorem C86_state_kept_partial : forall m, good_state m ->
  exists m', load_text (save_text m) = (Some m', true) /\ Permutation m' m.
Proof. exact state_kept. Qed.
Print Assumptions C86_state_kept_partial.

(** The file does not depend on the order in which Go goes through the map. *)
Theorem C86_order_partial : forall m m', NoDup (map fst m) -> Permutation m m' -> save_text m = save_text m'.
Proof. exact save_order. Qed.
Print Assumptions C86_order_partial.

(** A file whose writing stopped somewhere before its end is noticed, and the
    next round begins with no state; so does it with a saved state. *)
Theorem C86_cut_short_partial : forall m p, good_state m -> written_short p (save_text m) ->
  load_text p = (Some [], false) /\
  forall fetch st, do_rrdp fetch st (Some p) = do_rrdp fetch (Some []) None.
Proof. intros m p G S. split; [exact (torn_refused m p G S)|exact (restart_torn m p G S)]. Qed.
Print Assumptions C86_cut_short_partial.
Theorem C86_next_round_partial : forall m, good_state m -> exists m', Permutation m' m /\
  forall fetch st, do_rrdp fetch st (Some (save_text m)) = do_rrdp fetch (Some m') None.
Proof. exact restart. Qed.
Print Assumptions C86_next_round_partial.

(** The reader comes to an end with every file. *)
Theorem C86_reader_ends : forall s, parse_json s <> JFuel.
Proof. exact load_total. Qed.
Print Assumptions C86_reader_ends.

(** The reader reads every JSON text that is not nested too deeply, as what it
    means. *)
Theorem C86_reader_complete : forall n v s, Z.of_nat n <= 10000 -> jdocument n v s -> parse_json s = JOk v [].
Proof. exact document_read. Qed.
Print Assumptions C86_reader_complete.

Definition w_state : list (bytes * rrdp_info) :=
  [(str "https://b.example/n.xml", mkInfo (str "rsync://b.example/repo/") (str "b<&>") (str "9df4b597-af9e-4dca-bdda-719cce2c4e28") 45);
   (str "https://a.example/n.xml", mkInfo (str "rsync://a.example/""x""/") (utf8 233 ++ utf8 8232 ++ utf8 128512 ++ [10]) [] (-7))].
Lemma w_state_good : good_state w_state.
Proof.
  split.
  - repeat constructor; cbn [map fst In]; intros H; repeat (destruct H as [H|H]; [discriminate H|]); contradiction.
  - intros k i [H|[H|[]]]; injection H as <- <-; (split; [apply str_ascii; reflexivity|]); unfold good_info; cbn [ri_rsync ri_path ri_session ri_serial];
      (split; [apply str_ascii; reflexivity|]); (split; [|split; [apply str_ascii; reflexivity|lia]]).
    + apply str_ascii; reflexivity.
    + change (unicode (utf8 233 ++ utf8 8232 ++ utf8 128512 ++ [10])). apply un_cons; [split; lia|]. apply un_cons; [split; lia|]. apply un_cons; [split; lia|]. apply str_ascii; reflexivity.
Qed.
Example C86_example : good_state w_state /\
  save_text w_state = str "{""https://a.example/n.xml"":{""rsync"":""rsync://a.example/\""x\""/"",""path"":""" ++ utf8 233 ++ str "\u2028" ++ utf8 128512
    ++ str "\n"",""sessionid"":"""",""serial"":-7},""https://b.example/n.xml"":{""rsync"":""rsync://b.example/repo/"",""path"":""b\u003c\u0026\u003e"",""sessionid"":""9df4b597-af9e-4dca-bdda-719cce2c4e28"",""serial"":45}}" /\
  load_text (save_text w_state) = (Some (rev w_state), true) /\
  written_short (firstn 50 (save_text w_state)) (save_text w_state) /\
  load_text (firstn 50 (save_text w_state)) = (Some [], false) /\
  load_text (str " { ""K"" : {""SERIAL"":1e1, ""Path"":""\u00e9"", ""other"":[1,{}]}}") = (Some [(str "K", mkInfo [] (utf8 233) [] 0)], false).
Proof.
  split; [exact w_state_good|]. split; [vm_compute; reflexivity|]. split; [vm_compute; reflexivity|].
  split; [exists (skipn 50 (save_text w_state)); split; [vm_compute; discriminate|rewrite firstn_skipn; reflexivity]|].
  split; vm_compute; reflexivity.
Qed.

(** Addresses that are not Unicode are not kept apart: the hypothesis on the
    texts is needed. *)
Theorem C86_any_text_refuted : exists m : list (bytes * rrdp_info), NoDup (map fst m) /\
  (forall k i, In (k, i) m -> good_info i) /\
  forall m' ok, load_text (save_text m) = (Some m', ok) -> ~ Permutation m' m.
Proof.
  exists [([254], zero_info); ([255], zero_info)]. split.
  { repeat constructor; cbn [map fst In]; intros H; repeat (destruct H as [H|H]; [discriminate H|]); contradiction. }
  split.
  { intros k i [H|[H|[]]]; injection H as <- <-; repeat split; try constructor; cbn; lia. }
  intros m' ok H. assert (E : load_text (save_text [([254], zero_info); ([255], zero_info)]) = (Some [([239; 191; 189], zero_info)], true)) by (vm_compute; reflexivity).
  rewrite E in H. injection H as <- _. intro P. apply Permutation_length in P. discriminate P.
Qed.
Print Assumptions C86_any_text_refuted.

(** A file that is read without error need not leave a map that can be written
    to. *)
Theorem C86_usable_map_refuted : exists s, load_text s = (None, true).
Proof. exists (str "null"). vm_compute. reflexivity. Qed.
Print Assumptions C86_usable_map_refuted.

(** Whatever bytes the texts of a state are made of, its file is read without
    error, and the entries that are loaded are those that were saved, with each
    byte that is not part of UTF-8 replaced. *)
Theorem C86_any_state : forall m, NoDup (map fst m) -> (forall k i, In (k, i) m -> bytes_ok k = true /\ byte_info i) ->
  exists m', load_text (save_text m) = (Some m', true) /\ NoDup (map fst m') /\
    (forall k i, In (k, i) m -> exists k', replaced k k' /\ In k' (map fst m')) /\
    (forall k' i', In (k', i') m' -> exists k i, In (k, i) m /\ replaced k k' /\ replaced_info i i').
Proof. exact state_any. Qed.
Print Assumptions C86_any_state.
Theorem C86_replaced_unicode : forall s t, replaced s t -> unicode t /\ (unicode s -> t = s).
Proof. intros s t R. split; [exact (replaced_unicode s t R)|]. intros U. exact (replaced_is s t U R). Qed.
Print Assumptions C86_replaced_unicode.

(** The reader accepts nothing but JSON texts, up to bytes that are not UTF-8 and
    halves of pairs; with the theorem on what it reads, exactly those. *)
Theorem C86_reader_sound : forall s v r, parse_json s = JOk v r -> r = [] /\
  exists n s', Z.of_nat n <= 10000 /\ repaired s s' /\ jdocument n v s'.
Proof. exact document_sound. Qed.
Print Assumptions C86_reader_sound.

(** A file that is read without error is a JSON text of a state, and that state
    is loaded: members of the wrong kind are errors. *)
Theorem C86_loaded : forall s m, load_text s = (m, true) ->
  exists n v s', Z.of_nat n <= 10000 /\ repaired s s' /\ jdocument n v s' /\ means_state v m.
Proof. exact loaded. Qed.
Print Assumptions C86_loaded.

Example C86_loaded_example :
  load_text ([123] ++ str """a" ++ [255] ++ str """:{""Path"":""x\ud800"",""path"":null,""serial"":-5}}") =
    (Some [(str "a" ++ utf8 65533, mkInfo [] (str "x" ++ utf8 65533) [] (-5))], true) /\
  snd (load_text (str "{""a"":{""path"":5}}")) = false /\ snd (load_text (str "{""a"":[]}")) = false /\
  snd (load_text (str "{""a"":{""serial"":9223372036854775808}}")) = false.
Proof. repeat split; vm_compute; reflexivity. Qed.

(** C87. The file and the answer are JSON texts that carry the entries and the
    data about the list, in order and under their names, and mean nothing
    else. *)
Theorem C87_list_text : forall l, good_list l -> exists v, shows_list l v /\
  jdocument 3 v (output_text l) /\ jdocument 3 v (served_text l) /\
  (forall n v', Z.of_nat n <= 10000 -> jdocument n v' (output_text l) \/ jdocument n v' (served_text l) -> v' = v).
Proof. exact list_text. Qed.
Print Assumptions C87_list_text.

(** Lists made by octorpki are of that kind, if the names of the locators
    are Unicode and the signatures, in hexadecimal, ASCII. *)
Theorem C87_made_lists : forall l, ascii (m_sign (l_meta l)) -> ascii (m_signdate (l_meta l)) ->
  (forall r, In r (l_data l) -> unicode (j_ta r) /\ (exists ip p, shows r ip p) /\ exists n, j_asn r = str "AS" ++ dec n) ->
  good_list l.
Proof. exact made_good. Qed.
Print Assumptions C87_made_lists.

(** Nor does a list whose writing stopped pass for a list. *)
Theorem C87_cut_short : forall l p, good_list l -> written_short p (output_text l) -> parse_json p = JErr.
Proof.
  intros l p G (x & NX & E). apply (prefix_refused 3 (list_json l) (output_text l) p x); [lia| |intro H; exact H|exact E|exact NX].
  apply written, list_writable, G.
Qed.
Print Assumptions C87_cut_short.

Definition w_list : roalist :=
  mkList (mkMeta 2 1700000000 1700003600 [] (str "3045"))
    [mkJ (str "10.0.0.0/8") 24 (str "AS64496") (str "ARIN"); mkJ (str "2001:db8::/32") 48 (str "AS0") []].
Example C87_example : good_list w_list /\
  output_text w_list = str "{""metadata"":{""counts"":2,""generated"":1700000000,""valid"":1700003600,""signatureDate"":""3045""},""roas"":[{""prefix"":""10.0.0.0/8"",""maxLength"":24,""asn"":""AS64496"",""ta"":""ARIN""},{""prefix"":""2001:db8::/32"",""maxLength"":48,""asn"":""AS0""}]}" /\
  parse_json (firstn 100 (output_text w_list)) = JErr.
Proof.
  split; [|split; vm_compute; reflexivity].
  split; [constructor|]. split; [apply str_ascii; reflexivity|].
  repeat constructor; cbn [j_prefix j_asn j_ta]; try (apply str_ascii; reflexivity); constructor.
Qed.

(** Whatever bytes the texts of a list are made of, the file and the answer are
    JSON texts of the list with the bytes replaced that are not UTF-8. *)
Theorem C87_any_list : forall l, byte_list l -> exists l' v, replaced_list l l' /\ shows_list l' v /\
  jdocument 3 v (output_text l) /\ jdocument 3 v (served_text l) /\
  (forall n v', Z.of_nat n <= 10000 -> jdocument n v' (output_text l) \/ jdocument n v' (served_text l) -> v' = v).
Proof. exact list_any. Qed.
Print Assumptions C87_any_list.
Example C87_any_list_example :
  let l := mkList (mkMeta 1 2 0 [] []) [mkJ (str "10.0.0.0/8") 8 (str "AS1") [237; 160; 128; 65]] in
  byte_list l /\ exists l' v, replaced_list l l' /\ jdocument 3 v (output_text l) /\ map j_ta (l_data l') = [utf8 65533 ++ utf8 65533 ++ utf8 65533 ++ [65]].
Proof.
  assert (B : byte_list (mkList (mkMeta 1 2 0 [] []) [mkJ (str "10.0.0.0/8") 8 (str "AS1") [237; 160; 128; 65]])).
  { repeat split; try reflexivity. repeat constructor. }
  split; [exact B|]. exists (mend_list (mkList (mkMeta 1 2 0 [] []) [mkJ (str "10.0.0.0/8") 8 (str "AS1") [237; 160; 128; 65]])).
  pose proof (any_document 3 _ (list_sound _ B)) as D. eexists. split; [|split; [exact D|vm_compute; reflexivity]].
  unfold replaced_list, mend_list. cbn [l_meta l_data m_counts m_generated m_valid m_sign m_signdate map].
  do 3 (split; [reflexivity|]). split; [apply mend_spec; reflexivity|]. split; [apply mend_spec; reflexivity|].
  constructor; [|constructor]. repeat split; apply mend_spec; reflexivity.
Qed.
Theorem C87_any_cut_short : forall l p, byte_list l -> written_short p (output_text l) -> parse_json p = JErr.
Proof.
  intros l p G (x & NX & E). apply (prefix_refused 3 (mend_json (list_json l)) (output_text l) p x); [lia| |intro H; exact H|exact E|exact NX].
  apply written_any, list_sound, G.
Qed.
Print Assumptions C87_any_cut_short.
