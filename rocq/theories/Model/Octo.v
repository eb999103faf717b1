(** The main loop of octorpki: cmd/octorpki/octorpki.go. *)
From Coq Require Import String.
From Verif.Model Require Import Base Str Tal Paths Validator Cache Pool.

(** octorpki.go:204-244 OctoRPKI: rrdpFetch, rrdpFetchDomain, the rsync jobs,
    RRDPInfo (session and serial), and the keys of PrevRepos and
    CurrentRepos. *)
Record octo := mkOcto {
  o_fetch : kmap bytes;
  o_domain : kmap bytes;
  o_jobs : kmap bytes;
  o_info : kmap (bytes * Z);
  o_prev : list bytes;
  o_cur : list bytes
}.

Definition octo_empty : octo := mkOcto kempty kempty kempty kempty [] [].

(** validator/lib/cert.go:437-465 HasRRDP, GetRRDPGeneralName,
    GetRsyncGeneralName: the first entry of the kind. *)
Fixpoint first_sia (p : sia_method -> bool) (l : list (sia_method * bytes)) : option bytes :=
  match l with
  | [] => None
  | (m, n) :: r => if p m then Some n else first_sia p r
  end.
Definition is_sia_notify (m : sia_method) : bool := match m with SiaNotify => true | _ => false end.

Definition key_in (k : bytes) (l : list bytes) : bool := existsb (beq k) l.
(** Assignment to a map of which only the keys matter. *)
Definition add_key (l : list bytes) (k : bytes) : list bytes := if key_in k l then l else l ++ [k].

(** octorpki.go:1082-1107, the body of the loop over the valid certificates. *)
Definition register (sia : list (sia_method * bytes)) (o : octo) : octo :=
  match domain_module (odef [] (first_sia is_sia_repo sia)) with
  | None => o
  | Some (m, d) =>
      let job rrdp o := mkOcto (o_fetch o) (o_domain o) (kset (o_jobs o) m rrdp) (o_info o)
                               (o_prev o) (add_key (o_cur o) m) in
      match first_sia is_sia_notify sia with
      | None => job [] o
      | Some p =>
          let bind := mkOcto (kset (o_fetch o) p m) (kset (o_domain o) p d) (o_jobs o) (o_info o)
                             (o_prev o) (o_cur o) in
          match o_domain o p with
          | Some prev => if beq prev d then job p bind else o
          | None => job p bind
          end
      end
  end.
Definition register_all (l : list (list (sia_method * bytes))) (o : octo) : octo :=
  fold_left (fun o s => register s o) l o.

(** octorpki.go:292-316 MainReduce: the new PrevRepos and the result. *)
Definition main_reduce (prev cur : list bytes) : list bytes * bool :=
  let news := filter (fun k => negb (key_in k prev)) cur in
  let prev' := prev ++ news in
  (prev', negb (length prev' =? length cur)%nat || negb (match news with [] => true | _ => false end)).

(** An order in which the iteration over a map may go. *)
Definition listing {A} (m : kmap A) (l : list (bytes * A)) : Prop :=
  NoDup (map fst l) /\ forall k a, In (k, a) l <-> m k = Some a.

(** One round of the loop, octorpki.go:1553-1566, for [workers] workers:
    LoadRRDPInfo gives [info], the RRDP fetches end with the shared state [r],
    the failed TALs add the jobs [tals], the validated certificates are [sias].
    Jobs of mainRsync stay in the map. *)
Inductive round (failover : bool) (fetched : bytes -> bytes -> Z -> rresult -> Prop) (workers : nat)
  : octo -> octo -> Prop :=
| round_intro o info jobs p tals sias :
    listing (o_fetch o) jobs ->
    psteps rjob rphase rshared (fun _ => RBegin) (rwork failover fetched)
      (pool_start rjob rphase rshared workers jobs (mkRShared (o_jobs o) info [])) p ->
    p_main p = Returned ->
    round failover fetched workers o
      (let o1 := mkOcto (o_fetch o) (o_domain o)
                        (fold_left (fun m u => kset m u []) tals (r_jobs (p_st p)))
                        (r_info (p_st p)) (o_prev o) (o_cur o) in
       let o2 := register_all sias o1 in
       mkOcto (o_fetch o2) (o_domain o2) (o_jobs o2) (o_info o2)
              (fst (main_reduce (o_prev o2) (o_cur o2))) (o_cur o2)).

Inductive rounds failover fetched workers : octo -> octo -> Prop :=
| rounds_refl o : rounds failover fetched workers o o
| rounds_more o o1 o2 : rounds failover fetched workers o o1 -> round failover fetched workers o1 o2 ->
    rounds failover fetched workers o o2.

(** ** Root certificates and rsync *)

(** octorpki.go:654-663 _fetchTAL, 714-754 fetchTALurl: [get] is getHTTP. *)
Definition is_http (u : bytes) : bool := has_prefix u (str "http://") || has_prefix u (str "https://").
Fixpoint fetch_uris (cwd : loc) (base : bytes) (get : bytes -> option bytes) (place : bytes) (uris : list bytes) (s : fs)
  : fs * verdict :=
  match uris with
  | [] => (s, VErr)
  | u :: r =>
      if is_http u then
        match get u with
        | None => fetch_uris cwd base get place r s
        | Some d =>
            match exec (write_ops cwd base place d) s with
            | (s', VErr) => fetch_uris cwd base get place r s'
            | x => x
            end
        end
      else fetch_uris cwd base get place r s
  end.

(** octorpki.go:629-652 fetchTAL: the job for rsync, if there is one. *)
Definition fetch_tal (failover : bool) (hex_sha1 : bytes -> bytes) (cwd : loc) (base : bytes)
  (get : bytes -> option bytes) (t : tal) (s : fs) : fs * verdict * option bytes :=
  match fetch_uris cwd base get (get_rsync_uri hex_sha1 t) (t_uris t) s with
  | (s', VErr) => (s', VErr, if failover && has_rsync t then Some (get_rsync_uri hex_sha1 t) else None)
  | (s', v) => (s', v, None)
  end.

(** octorpki.go:550-577 fetchRsync, sync/lib/rsync.go:66-73: the directory that
    is made and given to rsync; [None] is the end of the process. *)
Definition rsync_dest (cwd : loc) (base uri : bytes) : option loc :=
  match extract_file uri with
  | Some f => Some (resolve cwd (path_join base f))
  | None => None
  end.
Definition rsync_mkdir (cwd : loc) (base uri : bytes) (s : fs) : fs * verdict :=
  match rsync_dest cwd base uri with
  | None => (s, VFatal)
  | Some d => match exec (map ODir (prefixes d)) s with
              | (s', VFatal) => (s', VErr)
              | x => x
              end
  end.

(** ** The validation loop *)

Record lcfg := mkLcfg { l_wait : bool; l_oneoff : bool; l_max : Z }.
Record lstate := mkLstate {
  l_iter : Z; l_until : Z; l_active : bool;
  l_stable : bool; l_hasprev : bool;
  l_prev : list bytes; l_cur : list bytes }.
Definition lstart : lstate := mkLstate 0 0 false false false [] [].

(** What can be seen from outside, in order: the values of Stable and
    HasPreviousStable between two assignments, the end of a validation that
    registered some modules, the output file being written. *)
Inductive lev := Obs (stable hasprev : bool) | Validated (found : list bytes) | Output.

(** octorpki.go:1536-1620, one pass; the result says whether the loop is left. *)
Definition loop_pass (c : lcfg) (found : list bytes) (s : lstate) : list lev * bool * lstate :=
  let until := (if l_active s then l_until s else 0) + 1 in
  let iter := l_iter s + 1 in
  let cur := fold_left add_key found (l_cur s) in
  let '(prev, changed) := main_reduce (l_prev s) cur in
  let stable1 := negb changed && (1 <? iter) in
  let stable2 := (l_max c <? until) || stable1 in
  let tr := [Obs (l_stable s) (l_hasprev s); Validated found; Obs stable1 (l_hasprev s); Obs stable1 stable1] ++
            (if l_oneoff c && (stable1 || negb (l_wait c)) then [Output] else []) ++
            [Obs stable2 stable1] in
  if l_oneoff c && stable2 then (tr, true, mkLstate iter until true stable2 stable1 prev cur)
  else if stable2 then (tr ++ [Obs false stable1], false, mkLstate iter until false false stable1 prev cur)
  else (tr, false, mkLstate iter until true stable2 stable1 prev cur).

Fixpoint loop_run (c : lcfg) (l : list (list bytes)) (s : lstate) : list lev * bool * lstate :=
  match l with
  | [] => ([], false, s)
  | f :: r =>
      match loop_pass c f s with
      | (tr, true, s') => (tr, true, s')
      | (tr, false, s') => let '(tr', e, s'') := loop_run c r s' in (tr ++ tr', e, s'')
      end
  end.

(** octorpki.go:1203-1208 ServeROAs, 1238-1243 ServeResources: is the list
    served (and not refused with status 503). *)
Definition served (c : lcfg) (stable hasprev : bool) : bool := negb (negb stable && l_wait c && negb hasprev).
