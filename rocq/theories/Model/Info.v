(** The repositories shown by the information page: cmd/octorpki/octorpki.go,
    mainValidation and ServeInfo. *)
From Coq Require Import Arith.
From Verif.Model Require Import Base Str Paths Validator Pool Octo.

(** octorpki.go:1262-1265 SIA *)
Record site := mkSite { s_rsync : bytes; s_rrdp : bytes }.

(** One slice ia[i].  Go's append puts the elements into a new array when the
    old one is full: [g_array] counts the arrays used so far, [g_cap] is the
    capacity of the current one. *)
Record gslice := mkGslice { g_array : nat; g_cap : nat; g_items : list site }.
(** octorpki.go:1039-1042: make([]SIA, 0). *)
Definition gslice_new : gslice := mkGslice 0 0 [].

(** A pointer to an element: the slice, the array and the index. *)
Record gptr := mkGptr { p_slice : nat; p_array : nat; p_index : nat }.

Fixpoint replace_nth {A} (n : nat) (a : A) (l : list A) : list A :=
  match l, n with
  | [], _ => []
  | _ :: r, O => a :: r
  | x :: r, S k => x :: replace_nth k a r
  end.

(** A write through a pointer.  In an array that was left behind nobody sees
    it: the arrays are only read through the slices. *)
Definition gwrite (p : gptr) (s : site) (ia : list gslice) : list gslice :=
  match nth_error ia (p_slice p) with
  | Some g => if (g_array g =? p_array p)%nat
              then replace_nth (p_slice p) (mkGslice (g_array g) (g_cap g) (replace_nth (p_index p) s (g_items g))) ia
              else ia
  | None => ia
  end.

(** octorpki.go:1082-1097: the module and the notification address of a
    certificate that is registered, [None] for the two [continue]s. *)
Definition registered_as (sia : list (sia_method * bytes)) (o : octo) : option (bytes * bytes) :=
  match domain_module (odef [] (first_sia is_sia_repo sia)) with
  | None => None
  | Some (m, d) =>
      match first_sia is_sia_notify sia with
      | None => Some (m, [])
      | Some p =>
          match o_domain o p with
          | Some prev => if beq prev d then Some (m, p) else None
          | None => Some (m, p)
          end
      end
  end.

Section Info.
(** The capacity that append gives to a slice whose array of the given
    capacity is full (at least one more than before). *)
Variable grow : nat -> nat.

Definition gappend (s : site) (g : gslice) : gslice :=
  if (length (g_items g) <? g_cap g)%nat
  then mkGslice (g_array g) (g_cap g) (g_items g ++ [s])
  else mkGslice (S (g_array g)) (Nat.max (S (g_cap g)) (grow (g_cap g))) (g_items g ++ [s]).

(** octorpki.go:1110-1123, for a certificate found below TAL number [i]. *)
Definition info_add (i : nat) (m p : bytes) (st : list gslice * kmap gptr) : list gslice * kmap gptr :=
  let '(ia, tmp) := st in
  match tmp m with
  | Some q => (gwrite q (mkSite m p) ia, tmp)
  | None =>
      match nth_error ia i with
      | None => st
      | Some g =>
          let g' := gappend (mkSite m p) g in
          (replace_nth i g' ia, kset tmp m (mkGptr i (g_array g') (length (g_items g))))
      end
  end.

(** octorpki.go:1077-1124, the loop over the valid certificates of one TAL. *)
Definition info_cert (i : nat) (sia : list (sia_method * bytes)) (x : octo * (list gslice * kmap gptr))
  : octo * (list gslice * kmap gptr) :=
  let '(o, st) := x in
  (register sia o, match registered_as sia o with
                   | Some (m, p) => info_add i m p st
                   | None => st
                   end).
Definition info_tal (i : nat) (l : list (list (sia_method * bytes))) (x : octo * (list gslice * kmap gptr)) :=
  fold_left (fun x sia => info_cert i sia x) l x.
Fixpoint info_tals (i : nat) (ls : list (list (list (sia_method * bytes)))) (x : octo * (list gslice * kmap gptr)) :=
  match ls with
  | [] => x
  | l :: r => info_tals (S i) r (info_tal i l x)
  end.

(** octorpki.go:1037-1133: what setInfoAuthorities is given after the
    validation of all TALs, whose valid certificates are [ls]. *)
Definition info_authorities (ls : list (list (list (sia_method * bytes)))) (o : octo) : list (list site) :=
  map g_items (fst (snd (info_tals 0 ls (o, (map (fun _ => gslice_new) ls, kempty))))).
End Info.

(** octorpki.go:1287-1313 ServeInfo: the list of authorities on the page. *)
Fixpoint info_page (i : nat) (same : bool) (tals names : list bytes) (ia : list (list site)) : list (bytes * list site) :=
  match tals, ia with
  | t :: ts, a :: as_ => (if same then nth i names [] else t, a) :: info_page (S i) same ts names as_
  | _, _ => []
  end.
Definition serve_info (tals names : list bytes) (ia : list (list site)) : list (bytes * list site) :=
  info_page 0 (length names =? length tals)%nat tals names ia.
