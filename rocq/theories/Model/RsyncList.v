(** What is reported of a run of rsync: sync/lib/rsync.go:16-139. *)
From Coq Require Import String.
From Verif.Model Require Import Base Str TalText Tal Paths.

(** rsync.go:22, 116: the line ends with a dot and one of these; a line has no
    end of line inside, so [.] stands for any of its bytes. *)
Definition wanted_extensions : list bytes := map str ["cer"; "mft"; "crl"; "roa"; "gbr"]%string.
Definition wanted (line : bytes) : bool :=
  existsb (fun e => has_suffix line (str "." ++ e)) wanted_extensions.

(** rsync.go:21, 48-54 FilterMatch; the error is always nil. *)
Definition filter_match (line : bytes) : bytes * bool :=
  if has_prefix line (str "deleting ") then (skipn 9 line, true) else (line, false).

(** rsync.go:102-108: the address that names are put behind *)
Definition report_prefix (uri : bytes) : go bytes :=
  if (length uri <? 8)%nat then Panic
  else
    let parts := split_on slash (skipn 8 uri) in
    if negb (last uri 0 =? slash) && (2 <? length parts)%nat
    then Ret (rsync_scheme ++ join [slash] (removelast parts))
    else Ret (trim_suffix uri [slash]).

(** bufio.Scanner with ScanLines: the last line may lack its end; a carriage
    return before the end is dropped; at a line that does not fit into the
    buffer the scanner stops. *)
Definition drop_cr (l : bytes) : bytes := trim_suffix l [13].
Fixpoint scan (l : list bytes) : list bytes :=
  match l with
  | [] => []
  | [a] => match a with [] => [] | _ => if Z.of_nat (length a) <? 65536 then [drop_cr a] else [] end
  | a :: r => if Z.of_nat (length a) <? 65536 then drop_cr a :: scan r else []
  end.
Definition scan_lines (out : bytes) : list bytes := scan (split_on 10 out).

(** rsync.go:112-138: the files reported for the output of the program; the
    error of the scanner is dropped (136-137). *)
Definition run_rsync (uri out : bytes) : go (list (bytes * bool)) :=
  gbind (report_prefix uri) (fun p =>
  Ret (map (fun line => let '(f, d) := filter_match line in (p ++ [slash] ++ f, d))
         (filter wanted (scan_lines out)))).
