(** The cache directory: cmd/octorpki/octorpki.go:326-368.  A write is a list
    of elementary operations on a file system without symbolic links; other
    failures of the operating system (permissions, space, name length) do not
    occur. *)
From Coq Require Import String.
From Verif.Model Require Import Base Str Tal Paths Validator.

Inductive node := Dir | File (data : bytes).

Fixpoint leq (a b : loc) : bool :=
  match a, b with
  | [], [] => true
  | x :: a', y :: b' => beq x y && leq a' b'
  | _, _ => false
  end.

Definition fs := loc -> option node.
Definition fset (s : fs) (l : loc) (n : node) : fs := fun l' => if leq l' l then Some n else s l'.

(** What one call returns: success, an error, or the end of the process
    (log.Fatalf). *)
Inductive verdict := VOk | VErr | VFatal.

Inductive op :=
| ODir (l : loc)
| OFile (l : loc) (data : bytes)
| OErr
| OFatal.

(** os.MkdirAll for one element of the path, ioutil.WriteFile. *)
Definition step (o : op) (s : fs) : fs * verdict :=
  match o with
  | ODir l =>
      match s l with
      | Some (File _) => (s, VFatal)
      | _ => (fset s l Dir, VOk)
      end
  | OFile l d =>
      match s l with
      | Some Dir => (s, VErr)
      | _ => (fset s l (File d), VOk)
      end
  | OErr => (s, VErr)
  | OFatal => (s, VFatal)
  end.

Section Exec.
  Variable St : Type.
  Variable stp : op -> St -> St * verdict.
  Fixpoint exec_with (l : list op) (s : St) : St * verdict :=
    match l with
    | [] => (s, VOk)
    | o :: r => match stp o s with
                | (s', VOk) => exec_with r s'
                | x => x
                end
    end.
End Exec.
Definition exec : list op -> fs -> fs * verdict := exec_with fs step.

(** The process is killed after [k] more operations; a file being written at
    that moment may be left with any content [g]. *)
Definition torn (g : option bytes) (o : op) (s : fs) : fs :=
  match o, g with
  | OFile l _, Some d => match s l with Some Dir => s | _ => fset s l (File d) end
  | _, _ => s
  end.
Definition step_crash (g : option bytes) (o : op) (x : fs * nat) : fs * nat * verdict :=
  match snd x with
  | O => (torn g o (fst x), O, VFatal)
  | S k => let (s', v) := step o (fst x) in (s', k, v)
  end.

(** The directories os.MkdirAll goes through, from the root down. *)
Definition prefixes (l : loc) : list loc :=
  map (fun n => firstn n l) (seq 1 (length l)).

(** octorpki.go:326-343 WriteRsyncFileOnDisk, 345-350 mustMkdirAll: the
    directories are made before the address is checked. *)
Definition write_ops (cwd : loc) (base url data : bytes) : list op :=
  match extract_folders url, extract_file url with
  | Some dir, Some file =>
      map ODir (prefixes (resolve cwd (path_join base dir))) ++
      (if bad_path file then [OErr] else [OFile (resolve cwd (path_join base file)) data])
  | _, _ => [OFatal]
  end.

(** octorpki.go:352-368 ReceiveRRDPFileCallback; whether the element is a
    withdrawal makes no difference. *)
Definition callback_ops (cwd : loc) (base domain url data : bytes) : list op :=
  if negb (contains url domain) then [] else write_ops cwd base url data.
