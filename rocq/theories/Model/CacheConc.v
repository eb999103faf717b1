(** Several fetches over RRDP at the same time: cmd/octorpki/rrdp_fetcher.go:36-58
    runs FetchRRDP in several goroutines, and each writes into the cache as it
    receives elements (octorpki.go:326-368).  ioutil.WriteFile opens the file,
    which empties or makes it, and then calls write(2) until everything is
    written, each time at the place where it is; the calls of different
    goroutines are in any order.  Every fetch is a process here: the number of
    workers limits how many run at once, so that their orders are some of
    these. *)
From Coq Require Import String.
From Verif.Model Require Import Base Str Tal Paths Validator Cache Rrdp.

(** write(2) of [d] at offset [k] of a file with content [x]; what lies
    between is filled with zeros. *)
Definition overlay (k : nat) (d x : bytes) : bytes :=
  firstn k (x ++ repeat 0 (k - length x)) ++ d ++ skipn (k + length d) x.

(** An operation, and whether its error is ignored. *)
Definition fop := (bool * op)%type.

(** A fetch: the file being written, if any, with the number of octets
    written, and the operations that follow; or its end. *)
Inductive proc :=
| Running (cur : option (loc * bytes * nat)) (todo : list fop)
| Stopped (v : verdict).

(** One system call of a fetch; write(2) writes at most [S n] octets. *)
Definition proc_step (n : nat) (p : proc) (s : fs) : proc * fs :=
  match p with
  | Stopped v => (p, s)
  | Running (Some (l, d, k)) todo =>
      match skipn k d with
      | [] => (Running None todo, s)
      | rest =>
          let part := firstn (S n) rest in
          (Running (Some (l, d, (k + length part)%nat)) todo,
           match s l with Some (File x) => fset s l (File (overlay k part x)) | _ => s end)
      end
  | Running None [] => (Stopped VOk, s)
  | Running None ((ign, OFile l d) :: r) =>
      match s l with
      | Some Dir => (if ign : bool then Running None r else Stopped VErr, s)
      | _ => (Running (Some (l, d, O)) r, fset s l (File []))
      end
  | Running None ((ign, o) :: r) =>
      match step o s with
      | (s', VOk) => (Running None r, s')
      | (s', VErr) => (if ign : bool then Running None r else Stopped VErr, s')
      | (s', VFatal) => (Stopped VFatal, s')
      end
  end.

Definition is_fatal (p : proc) : bool := match p with Stopped VFatal => true | _ => false end.
Fixpoint set_nth {A} (i : nat) (x : A) (l : list A) : list A :=
  match l, i with
  | [], _ => []
  | _ :: r, O => x :: r
  | y :: r, S j => y :: set_nth j x r
  end.

(** One step of process [fst c]; after log.Fatalf there are none. *)
Definition conc_step (ps : list proc * fs) (c : nat * nat) : list proc * fs :=
  if existsb is_fatal (fst ps) then ps
  else match nth_error (fst ps) (fst c) with
       | None => ps
       | Some p => let (p', s') := proc_step (snd c) p (snd ps) in (set_nth (fst c) p' (fst ps), s')
       end.
Definition conc (sched : list (nat * nat)) (ps : list proc * fs) : list proc * fs := fold_left conc_step sched ps.

(** The fetches [jobs], each given by its operations, in the order [sched]. *)
Definition conc_run (jobs : list (list fop)) (sched : list (nat * nat)) (s : fs) : list proc * fs :=
  conc sched (map (Running None) jobs, s).

(** sync/lib/rrdp.go:349-358: the error of the callback for a withdrawal in a
    delta is dropped. *)
Definition ignored (e : event) : bool := e_withdraw e && negb (e_snapshot e).

(** The operations of a fetch that hands the elements [es] to
    ReceiveRRDPFileCallback (octorpki.go:352-368).  Only the last operation of
    an element can give an error, so that nothing else of it is left out. *)
Definition job_ops (cwd : loc) (base domain : bytes) (es : list event) : list fop :=
  flat_map (fun e => map (pair (ignored e)) (callback_ops cwd base domain (e_path e) (e_data e))) es.
