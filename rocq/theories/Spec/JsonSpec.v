(** JSON texts: RFC 8259. *)
From Coq Require Import List ZArith String.
From Verif.Model Require Import Base Str Json.
Import ListNotations.
Open Scope Z_scope.

(** A character of Unicode, and its encoding in UTF-8 (RFC 3629). *)
Definition scalar (c : Z) : Prop := 0 <= c < 1114112 /\ ~ (55296 <= c < 57344).
Definition utf8 (c : Z) : bytes :=
  if c <? 128 then [c]
  else if c <? 2048 then [192 + c / 64; 128 + c mod 64]
  else if c <? 65536 then [224 + c / 4096; 128 + c / 64 mod 64; 128 + c mod 64]
  else [240 + c / 262144; 128 + c / 4096 mod 64; 128 + c / 64 mod 64; 128 + c mod 64].
(** Texts in UTF-8. *)
Inductive unicode : bytes -> Prop :=
| un_nil : unicode []
| un_cons c s : scalar c -> unicode s -> unicode (utf8 c ++ s).

(** Section 2: white space; section 7: strings. *)
Definition ws (s : bytes) : Prop := Forall (fun c => In c [32; 9; 10; 13]) s.
Definition hex_digit (n c : Z) : Prop := (0 <= n <= 9 /\ c = 48 + n) \/ (10 <= n <= 15 /\ (c = 87 + n \/ c = 55 + n)).
Definition hex_four (n : Z) (s : bytes) : Prop :=
  exists a b c d w x y z, s = [w; x; y; z] /\ hex_digit a w /\ hex_digit b x /\ hex_digit c y /\ hex_digit d z /\
    n = a * 4096 + b * 256 + c * 16 + d.
(** [jchar c s]: [s] is a way to write the character [c]. *)
Inductive jchar : Z -> bytes -> Prop :=
| jc_plain c : scalar c -> 32 <= c -> c <> 34 -> c <> 92 -> jchar c (utf8 c)
| jc_short c e : In (c, e) [(34, 34); (92, 92); (47, 47); (8, 98); (12, 102); (10, 110); (13, 114); (9, 116)] -> jchar c [92; e]
| jc_u c h : scalar c -> hex_four c h -> jchar c (92 :: 117 :: h)
| jc_pair hi lo h l : 55296 <= hi < 56320 -> 56320 <= lo < 57344 -> hex_four hi h -> hex_four lo l ->
    jchar (65536 + (hi - 55296) * 1024 + (lo - 56320)) (92 :: 117 :: h ++ 92 :: 117 :: l).
(** The characters of a string: value and text. *)
Inductive jchars : bytes -> bytes -> Prop :=
| js_nil : jchars [] []
| js_cons c t v s : jchar c t -> jchars v s -> jchars (utf8 c ++ v) (t ++ s).
Definition jstring (v s : bytes) : Prop := exists t, jchars v t /\ s = 34 :: t ++ [34].

(** Section 6: numbers. *)
Definition digits (s : bytes) : Prop := s <> [] /\ Forall (fun c => 48 <= c <= 57) s.
Definition jnumber (s : bytes) : Prop :=
  exists m i f e, s = m ++ i ++ f ++ e /\ (m = [] \/ m = [45]) /\
    (i = [48] \/ (digits i /\ hd 0 i <> 48)) /\
    (f = [] \/ exists d, digits d /\ f = 46 :: d) /\
    (e = [] \/ exists x g d, In x [101; 69] /\ In g [[]; [43]; [45]] /\ digits d /\ e = x :: g ++ d).

(** Sections 3 to 5: values, with no more than the given depth of nesting. *)
Inductive jtext : nat -> json -> bytes -> Prop :=
| jt_null n : jtext n JNull (str "null")
| jt_true n : jtext n (JBool true) (str "true")
| jt_false n : jtext n (JBool false) (str "false")
| jt_num n t : jnumber t -> jtext n (JNum t) t
| jt_str n v s : jstring v s -> jtext n (JStr v) s
| jt_arr0 n w : ws w -> jtext (S n) (JArr []) (91 :: w ++ [93])
| jt_arr n l s : l <> [] -> jelems n l s -> jtext (S n) (JArr l) (91 :: s ++ [93])
| jt_obj0 n w : ws w -> jtext (S n) (JObj []) (123 :: w ++ [125])
| jt_obj n l s : l <> [] -> jmembers n l s -> jtext (S n) (JObj l) (123 :: s ++ [125])
with jelems : nat -> list json -> bytes -> Prop :=
| je_one n v w1 s w2 : ws w1 -> ws w2 -> jtext n v s -> jelems n [v] (w1 ++ s ++ w2)
| je_more n v w1 s w2 l t : ws w1 -> ws w2 -> jtext n v s -> l <> [] -> jelems n l t -> jelems n (v :: l) (w1 ++ s ++ w2 ++ 44 :: t)
with jmembers : nat -> list (bytes * json) -> bytes -> Prop :=
| jm_one n k v w1 sk w2 w3 s w4 : ws w1 -> ws w2 -> ws w3 -> ws w4 -> jstring k sk -> jtext n v s ->
    jmembers n [(k, v)] (w1 ++ sk ++ w2 ++ 58 :: w3 ++ s ++ w4)
| jm_more n k v w1 sk w2 w3 s w4 l t : ws w1 -> ws w2 -> ws w3 -> ws w4 -> jstring k sk -> jtext n v s -> l <> [] -> jmembers n l t ->
    jmembers n ((k, v) :: l) (w1 ++ sk ++ w2 ++ 58 :: w3 ++ s ++ w4 ++ 44 :: t).
(** A document. *)
Definition jdocument (n : nat) (v : json) (s : bytes) : Prop :=
  exists w1 t w2, ws w1 /\ ws w2 /\ jtext n v t /\ s = w1 ++ t ++ w2.

(** Texts that are not UTF-8: every byte with which no character begins stands
    for U+FFFD. *)
Definition begins (s : bytes) : Prop := exists c r, scalar c /\ s = utf8 c ++ r.
Inductive replaced : bytes -> bytes -> Prop :=
| re_nil : replaced [] []
| re_char c s t : scalar c -> replaced s t -> replaced (utf8 c ++ s) (utf8 c ++ t)
| re_byte b s t : ~ begins (b :: s) -> replaced s t -> replaced (b :: s) (utf8 65533 ++ t).
(** The same within a document, where an escape that is half of a pair stands
    for U+FFFD too. *)
Inductive repaired : bytes -> bytes -> Prop :=
| rp_nil : repaired [] []
| rp_char c s t : scalar c -> repaired s t -> repaired (utf8 c ++ s) (utf8 c ++ t)
| rp_byte b s t : ~ begins (b :: s) -> repaired s t -> repaired (b :: s) (utf8 65533 ++ t)
| rp_half c h s t : 55296 <= c < 57344 -> hex_four c h -> repaired s t ->
    repaired (92 :: 117 :: h ++ s) (92 :: 117 :: [102; 102; 102; 100] ++ t).
