(** Data shared between the goroutines of octorpki in server mode:
    cmd/octorpki/octorpki.go, rrdp_fetcher.go, rsync_fetcher.go.

    A goroutine is the list of its accesses to the fields of OctoRPKI and of its
    locks, in order, with every choice that data makes left open.  Not modelled:
    what is computed between accesses, the atomic fields (Stable,
    HasPreviousStable, iterations), fields never written after NewOctoRPKI,
    the channels of the worker pools (Model/Pool.v), the log and the tracer. *)
From Verif.Model Require Import Base.

(** octorpki.go:219-236, 1493-1496: the locks *)
Inductive lock := LFetch | LDomain | LJobs | LRrdp | LRoas | LInfo | LRes.
(** octorpki.go:204-244, 280-284, 1493-1496: fields that are written after
    the start.  LocalFetch.repositories is the map CurrentRepos. *)
Inductive var :=
| XFetch | XDomain | XJobs | XRrdp | XRoas | XInfo | XRes
| XTals | XCurrent | XPrev | XComputed | XCounts | XDuration.

Definition lock_eq_dec : forall a b : lock, {a = b} + {a <> b}. Proof. decide equality. Defined.
Definition var_eq_dec : forall a b : var, {a = b} + {a <> b}. Proof. decide equality. Defined.
Definition lock_eqb (a b : lock) : bool := if lock_eq_dec a b then true else false.
Definition var_eqb (a b : var) : bool := if var_eq_dec a b then true else false.

(** Lock with [excl] set, RLock without; Unlock and RUnlock; an access; a
    write to the client, which waits for the client to read.  The number
    written stands for the value. *)
Inductive op :=
| Lock (l : lock) (excl : bool) | Unlock (l : lock) | Rd (x : var) | Wr (x : var) (v : nat) | Send.
(** Besides: start goroutines; wait for all that were started. *)
Inductive act := Do (o : op) | Fork (ws : list (list op)) | Join.

Inductive kind := Main | Request | Worker.
(** [t_wait]: an exclusive Lock has been called and waits for its turn;
    [t_seen]: the values read, the last one first. *)
Record thread := mkT {
  t_kind : kind; t_code : list act; t_held : list (lock * bool); t_wait : bool; t_seen : list (var * nat) }.
Record state := mkS { s_threads : list thread; s_store : var -> nat }.

Definition holds (l : lock) (t : thread) : bool := existsb (fun h => lock_eqb (fst h) l) (t_held t).
Definition holds_excl (l : lock) (t : thread) : bool := existsb (fun h => lock_eqb (fst h) l && snd h) (t_held t).
Definition waits_for (l : lock) (t : thread) : bool :=
  t_wait t && match t_code t with Do (Lock l' true) :: _ => lock_eqb l' l | _ => false end.
Definition finished (t : thread) : bool := match t_code t with [] => true | _ => false end.
Definition is_worker (t : thread) : bool := match t_kind t with Worker => true | _ => false end.

Fixpoint update (i : nat) (t : thread) (l : list thread) : list thread :=
  match l, i with
  | [], _ => []
  | _ :: r, O => t :: r
  | x :: r, S j => x :: update j t r
  end.

Fixpoint release (l : lock) (h : list (lock * bool)) : list (lock * bool) :=
  match h with
  | [] => []
  | x :: r => if lock_eqb (fst x) l then r else x :: release l r
  end.

Section Machine.
(** Does the client of a request read what it is sent? *)
Variable reads : nat -> bool.

(** One step of goroutine [i]; [None] if it cannot go on now.  sync.RWMutex:
    a call of Lock first keeps new readers away, then waits for those inside. *)
Definition step (i : nat) (s : state) : option state :=
  match nth_error (s_threads s) i with
  | None => None
  | Some t =>
      let go_on c h w seen := mkS (update i (mkT (t_kind t) c h w seen) (s_threads s)) (s_store s) in
      match t_code t with
      | [] => None
      | Do (Lock l true) :: c =>
          if t_wait t then
            if existsb (holds l) (s_threads s) then None
            else Some (go_on c ((l, true) :: t_held t) false (t_seen t))
          else Some (go_on (t_code t) (t_held t) true (t_seen t))
      | Do (Lock l false) :: c =>
          if existsb (fun u => holds_excl l u || waits_for l u) (s_threads s) then None
          else Some (go_on c ((l, false) :: t_held t) false (t_seen t))
      | Do (Unlock l) :: c =>
          if holds l t then Some (go_on c (release l (t_held t)) false (t_seen t)) else None
      | Do (Rd x) :: c => Some (go_on c (t_held t) false ((x, s_store s x) :: t_seen t))
      | Do (Wr x v) :: c =>
          Some (mkS (update i (mkT (t_kind t) c (t_held t) false (t_seen t)) (s_threads s))
                    (fun y => if var_eqb x y then v else s_store s y))
      | Do Send :: c => if reads i then Some (go_on c (t_held t) false (t_seen t)) else None
      | Fork ws :: c =>
          Some (mkS (update i (mkT (t_kind t) c (t_held t) false (t_seen t)) (s_threads s)
                       ++ map (fun w => mkT Worker (map Do w) [] false []) ws) (s_store s))
      | Join :: c =>
          if forallb (fun u => negb (is_worker u) || finished u) (s_threads s)
          then Some (go_on c (t_held t) false (t_seen t)) else None
      end
  end.

Fixpoint run (sched : list nat) (s : state) : option state :=
  match sched with
  | [] => Some s
  | i :: r => match step i s with Some s' => run r s' | None => None end
  end.
End Machine.

(** ** The goroutines *)
(** octorpki.go:246-278, 402-412, 1182-1201, 1504-1528 and others: one access
    under one lock *)
Definition reading (l : lock) (x : var) : list op := [Lock l false; Rd x; Unlock l].
Definition writing (l : lock) (x : var) (v : nat) : list op := [Lock l true; Wr x v; Unlock l].

(** octorpki.go:427-513 fetchRRDP: the fetch succeeds, or fails and the job is
    deleted or not *)
Inductive fetched := FetchOk | FetchFailed (deleted : bool).
Definition fetch_rrdp (v : nat) (r : fetched) : list op :=
  reading LRrdp XRrdp ++ reading LDomain XDomain ++
  match r with
  | FetchOk => writing LJobs XJobs v ++ writing LRrdp XRrdp v
  | FetchFailed true => writing LJobs XJobs v
  | FetchFailed false => []
  end.

(** octorpki.go:1070-1124, one valid certificate: no repository module can be
    read from it; its RRDP address belongs to another host; it is added *)
Inductive seen_cert := NoModule | OtherHost | WithRrdp | RsyncOnly.
Definition add_repo (v : nat) (c : seen_cert) : list op :=
  match c with
  | NoModule => []
  | OtherHost => reading LDomain XDomain
  | WithRrdp => reading LDomain XDomain ++ writing LDomain XDomain v ++ writing LFetch XFetch v ++
                writing LJobs XJobs v ++ [Wr XCurrent v]
  | RsyncOnly => writing LJobs XJobs v ++ [Wr XCurrent v]
  end.

(** The choices of one iteration of the loop: with -rrdp, whether the file of
    the state is used and can be read, and the jobs of each worker; which of the
    locators left from before fall back to rsync; the number of rsync workers;
    for each locator how many are put down for fetching and the certificates;
    the repositories that are new; whether the state is stable. *)
Record round := mkRound {
  r_rrdp : option (option bool * list (list fetched));
  r_tals : list bool;
  r_rsync : nat;
  r_explored : list (nat * list seen_cert);
  r_new : nat;
  r_stable : bool }.

(** octorpki.go:370-386, 388-425, 1647-1669 doRRDP *)
Definition do_rrdp (v : nat) (r : round) : list act :=
  match r_rrdp r with
  | None => []
  | Some (file, jobs) =>
      match file with Some true => map Do [Lock LRrdp true; Wr XRrdp v; Wr XRrdp v; Unlock LRrdp] | _ => [] end ++
      Fork (map (flat_map (fetch_rrdp v)) jobs) :: map Do (reading LFetch XFetch) ++ [Join] ++
      match file with Some _ => map Do (reading LRrdp XRrdp) | None => [] end
  end.
(** octorpki.go:616-652, 1558-1559 *)
Definition main_tal (v : nat) (r : round) : list op :=
  Rd XTals :: flat_map (fun fallback : bool => if fallback then writing LJobs XJobs v else []) (r_tals r) ++ [Wr XTals v].
(** octorpki.go:515-530; fetchRsync (550-577) touches nothing that is shared. *)
Definition main_rsync (r : round) : list act :=
  Fork (repeat [] (r_rsync r)) :: map Do (reading LJobs XJobs) ++ [Join].
(** octorpki.go:771-1022 generateROAList *)
Definition generate (v : nat) (r : round) : list op :=
  Wr XCounts v :: flat_map (fun _ => [Rd XCounts; Wr XCounts v]) (r_explored r) ++
  [Wr XComputed v] ++ writing LRes XRes v.
(** octorpki.go:1037-1142 mainValidation *)
Definition main_validation (v : nat) (r : round) : list op :=
  flat_map (fun e => repeat (Wr XTals v) (fst e) ++ flat_map (add_repo v) (snd e)) (r_explored r) ++
  writing LInfo XInfo v ++ generate v r ++ writing LRoas XRoas v ++
  [Wr XDuration v; Rd XDuration; Rd XComputed].
(** octorpki.go:292-316 MainReduce *)
Definition reduce (v : nat) (r : round) : list op :=
  Rd XCurrent :: Rd XPrev :: repeat (Wr XPrev v) (r_new r).
(** octorpki.go:1540-1619: one iteration, with the number of the iteration as
    the value written *)
Definition iteration (v : nat) (r : round) : list act :=
  do_rrdp v r ++ map Do (main_tal v r) ++ main_rsync r ++ map Do (main_validation v r) ++ map Do (reduce v r) ++
  (if r_stable r then [Do (Rd XComputed)] else []).
Fixpoint main_loop (v : nat) (rs : list round) : list act :=
  match rs with
  | [] => []
  | r :: rs' => iteration v r ++ main_loop (S v) rs'
  end.

(** octorpki.go:1203-1260, 1287-1326: the requests; [ready] is the answer to
    the question asked first *)
Inductive request := GetRoas (ready : bool) | GetResources (ready : bool) | GetInfo | GetHealth.
Definition serve (q : request) : list op :=
  match q with
  | GetRoas true => Rd XComputed :: reading LRoas XRoas ++ [Send]
  | GetResources true => [Lock LRes false; Rd XRes; Send; Unlock LRes]
  | GetInfo => reading LInfo XInfo ++ [Rd XRoas; Rd XCounts; Rd XComputed; Rd XDuration; Send]
  | GetRoas false | GetResources false | GetHealth => [Send]
  end.

(** octorpki.go:1451-1467: the loop and the requests that arrive *)
Definition start (rs : list round) (qs : list request) : state :=
  mkS (mkT Main (main_loop 1 rs) [] false [] :: map (fun q => mkT Request (map Do (serve q)) [] false []) qs) (fun _ => O).
