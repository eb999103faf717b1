(** C89: what is reported of a run of rsync. *)
From Coq Require Import String.
From Verif.Model Require Import Base Str TalText Tal Paths RsyncList.
From Verif.Spec Require Import PathSpec RsyncSpec.
From Verif.Proofs Require Import StrProofs PathProofs RsyncListProofs.

(** The report lists the objects among the printed lines, in order, each by the
    address that its name has relative to the source; names behind "deleting "
    are marked. *)
Theorem C89_reported : forall uri p lines, relative_to uri p -> Forall line_ok lines ->
  exists files, run_rsync uri (printed lines) = Ret files /\
    Forall2 (fun line f => (of_deletion line -> exists r, line = str "deleting " ++ r /\ f = (p ++ [slash] ++ r, true)) /\
                           (~ of_deletion line -> f = (p ++ [slash] ++ line, false)))
      (filter wanted lines) files /\
    (forall line, In line (filter wanted lines) <-> In line lines /\ object_name line).
Proof. exact reported. Qed.
Print Assumptions C89_reported.

(** For sources whose printed names are relative to all of them, the validation
    reads the file of a reported address where rsync has put it. *)
Theorem C89_located_partial : forall cwd base names dest line, base <> [] -> names <> [] ->
  contains (join [slash] names ++ [slash] ++ line) (str "rsync://") = false ->
  dest = resolve cwd (path_join base (join [slash] names)) ->
  resolve cwd (get_local_path (octo_map base) (address names ++ [slash] ++ line)) = put_at dest line.
Proof. exact located. Qed.
Print Assumptions C89_located_partial.

Example C89_example :
  relative_to (str "rsync://h/m") (str "rsync://h/m") /\
  Forall line_ok (map str ["receiving incremental file list"; "d/"; "d/a.cer"; "deleting d/b.roa"; "sent 1 bytes"]%string) /\
  run_rsync (str "rsync://h/m")
    (printed (map str ["receiving incremental file list"; "d/"; "d/a.cer"; "deleting d/b.roa"; "sent 1 bytes"]%string)) =
  Ret [(str "rsync://h/m/d/a.cer", false); (str "rsync://h/m/d/b.roa", true)] /\
  put_at (resolve [] (path_join (str "/c") (str "h/m"))) (str "d/a.cer") = map str ["c"; "h"; "m"; "d"; "a.cer"]%string.
Proof.
  split; [apply (rel_module [str "h"; str "m"]); [discriminate|cbn; auto| |discriminate]|].
  - repeat constructor; cbn; intros H; repeat destruct H as [H|H]; discriminate || contradiction.
  - split; [|split; vm_compute; reflexivity]. repeat constructor.
    all: try (intros H; cbn in H; repeat destruct H as [H|H]; discriminate || contradiction).
    all: intros (r & H); apply (f_equal (fun x => last x 0)) in H; rewrite last_last in H; discriminate.
Qed.

(** A directory named without a slash at its end: the addresses reported are
    read elsewhere than where rsync puts the files. *)
Theorem C89_directory_refuted : forall cwd base h m d x, base <> [] -> Forall name [h; m; d; x] ->
  relative_to (address [h; m; d]) (address [h; m]) /\
  put_at (resolve cwd (path_join base (join [slash] [h; m; d]))) (join [slash] [d; x]) = resolve cwd base ++ [h; m; d; d; x] /\
  (contains (join [slash] [h; m; d; x]) (str "rsync://") = false ->
   resolve cwd (get_local_path (octo_map base) (address [h; m] ++ [slash] ++ join [slash] [d; x])) = resolve cwd base ++ [h; m; d; x]).
Proof. exact directory_twice. Qed.
Print Assumptions C89_directory_refuted.

(** A received file whose name begins like a deletion is reported as the
    deletion of another. *)
Theorem C89_deletion_refuted : exists uri lines, relative_to uri uri /\ Forall line_ok lines /\
  lines = [str "deleting a.cer"] /\ run_rsync uri (printed lines) = Ret [(uri ++ str "/a.cer", true)].
Proof. exact deletion_named. Qed.
Print Assumptions C89_deletion_refuted.

(** A line of more than 64 KiB ends the report without an error. *)
Theorem C89_long_line_refuted : forall uri p l lines, relative_to uri p -> ~ In 10 l -> 65536 <= Z.of_nat (List.length l) ->
  run_rsync uri (printed (l :: lines)) = Ret [].
Proof. exact long_stops. Qed.
Print Assumptions C89_long_line_refuted.

(** Sources of fewer than eight octets end the program. *)
Theorem C89_short_refuted : forall uri out, (List.length uri < 8)%nat -> run_rsync uri out = Panic.
Proof. exact short_panics. Qed.
Print Assumptions C89_short_refuted.
