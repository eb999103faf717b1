(** encoding/json as the code uses it: Marshal with its escaping of HTML
    characters, and the two passes of Unmarshal, the first of which refuses
    texts that are not JSON.  The standard library is not part of /repo; the
    calls are cmd/octorpki/octorpki.go:380 and 389 (the file of the RRDP state)
    1234-1235 and 1630 (the list of ROAs). *)
From Coq Require Import String.
From Verif.Model Require Import Base Str Der.

Inductive json :=
| JNull
| JBool (b : bool)
| JNum (text : bytes)
| JStr (s : bytes)
| JArr (l : list json)
| JObj (l : list (bytes * json)).

(** unicode/utf8.DecodeRune: how many bytes follow the first of a valid
    encoding that is not ASCII. *)
Definition rune_more (s : bytes) : option nat :=
  match s with
  | b :: c :: r =>
      if in_range 194 223 b then (if in_range 128 191 c then Some 1%nat else None)
      else match r with
      | d :: r2 =>
          if in_range 224 239 b then
            (if in_range (if b =? 224 then 160 else 128) (if b =? 237 then 159 else 191) c && in_range 128 191 d then Some 2%nat else None)
          else match r2 with
          | e :: _ =>
              if in_range 240 244 b && in_range (if b =? 240 then 144 else 128) (if b =? 244 then 143 else 191) c
                 && in_range 128 191 d && in_range 128 191 e then Some 3%nat else None
          | [] => None
          end
      | [] => None
      end
  | _ => None
  end.

(** ** Writing: encodeState.string *)
Definition hexc (n : Z) : Z := if n <? 10 then 48 + n else 87 + n.
Definition enc_byte (b : Z) : bytes :=
  if (b =? 92) || (b =? 34) then [92; b]
  else if b =? 10 then [92; 110]
  else if b =? 13 then [92; 114]
  else if b =? 9 then [92; 116]
  else if (b <? 32) || (b =? 60) || (b =? 62) || (b =? 38) then [92; 117; 48; 48; hexc (b / 16); hexc (b mod 16)]
  else [b].
(** U+2028 and U+2029 *)
Definition line_sep (s : bytes) : option Z :=
  match s with
  | b :: c :: d :: _ => if (b =? 226) && (c =? 128) && ((d =? 168) || (d =? 169)) then Some d else None
  | _ => None
  end.
(** [k] bytes are left of a character that is copied or has been escaped. *)
Fixpoint enc_body (k : nat) (copy : bool) (s : bytes) : bytes :=
  match s with
  | [] => []
  | b :: r =>
      match k with
      | S k' => (if copy then [b] else []) ++ enc_body k' copy r
      | O =>
          if b <? 128 then enc_byte b ++ enc_body 0 true r
          else match rune_more s with
               | None => str "\ufffd" ++ enc_body 0 true r
               | Some w =>
                   match line_sep s with
                   | Some d => str "\u202" ++ [hexc (d mod 16)] ++ enc_body w false r
                   | None => b :: enc_body w true r
                   end
               end
      end
  end.
Definition enc_str (s : bytes) : bytes := [34] ++ enc_body 0 true s ++ [34].

Fixpoint enc_list (l : list bytes) : bytes :=
  match l with
  | [] => []
  | [x] => x
  | x :: l' => x ++ [44] ++ enc_list l'
  end.
Fixpoint enc_json (v : json) : bytes :=
  match v with
  | JNull => str "null"
  | JBool true => str "true"
  | JBool false => str "false"
  | JNum t => t
  | JStr s => enc_str s
  | JArr l => [91] ++ enc_list (map enc_json l) ++ [93]
  | JObj l => [123] ++ enc_list (map (fun m => enc_str (fst m) ++ [58] ++ enc_json (snd m)) l) ++ [125]
  end.

(** ** Reading: scanner and decodeState *)
Inductive jres (A : Type) := JOk (a : A) (rest : bytes) | JErr | JFuel.
Arguments JOk {A} a rest.
Arguments JErr {A}.
Arguments JFuel {A}.

Definition is_ws (c : Z) : bool := (c =? 32) || (c =? 9) || (c =? 10) || (c =? 13).
Fixpoint skip_ws (s : bytes) : bytes :=
  match s with
  | c :: r => if is_ws c then skip_ws r else s
  | [] => []
  end.

(** The value of four hexadecimal digits: getu4. *)
Definition hexv (c : Z) : option Z :=
  if in_range 48 57 c then Some (c - 48)
  else if in_range 97 102 c then Some (c - 87)
  else if in_range 65 70 c then Some (c - 55)
  else None.
Definition hex4 (a b c d : Z) : option Z :=
  match hexv a, hexv b, hexv c, hexv d with
  | Some a, Some b, Some c, Some d => Some (a * 4096 + b * 256 + c * 16 + d)
  | _, _, _, _ => None
  end.
Definition escapes : list (Z * Z) := [(98, 8); (102, 12); (110, 10); (114, 13); (116, 9); (92, 92); (47, 47); (34, 34)].
Fixpoint zlook (c : Z) (l : list (Z * Z)) : option Z :=
  match l with
  | [] => None
  | (k, v) :: l' => if c =? k then Some v else zlook c l'
  end.
Definition pre (p : bytes) (x : option (bytes * bytes)) : option (bytes * bytes) :=
  match x with Some (s, r) => Some (p ++ s, r) | None => None end.

(** A string after its first quote: stateInString and unquote.  Bytes that are
    not UTF-8 and unpaired surrogates read as U+FFFD. *)
Fixpoint p_chars (s : bytes) : option (bytes * bytes) :=
  match s with
  | [] => None
  | b :: r =>
      if b =? 34 then Some ([], r)
      else if b =? 92 then
        match r with
        | [] => None
        | e :: r1 =>
            if e =? 117 then
              match r1 with
              | h1 :: h2 :: h3 :: h4 :: r2 =>
                  match hex4 h1 h2 h3 h4 with
                  | None => None
                  | Some c =>
                      if in_range 55296 57343 c then
                        match r2 with
                        | x1 :: x2 :: g1 :: g2 :: g3 :: g4 :: r3 =>
                            if (x1 =? 92) && (x2 =? 117) then
                              match hex4 g1 g2 g3 g4 with
                              | Some c2 =>
                                  if in_range 55296 56319 c && in_range 56320 57343 c2
                                  then pre (utf8_rune ((c - 55296) * 1024 + (c2 - 56320) + 65536)) (p_chars r3)
                                  else pre (utf8_rune 65533) (p_chars r2)
                              | None => None
                              end
                            else pre (utf8_rune 65533) (p_chars r2)
                        | _ => pre (utf8_rune 65533) (p_chars r2)
                        end
                      else pre (utf8_rune c) (p_chars r2)
                  end
              | _ => None
              end
            else match zlook e escapes with
                 | Some c => pre [c] (p_chars r1)
                 | None => None
                 end
        end
      else if b <? 32 then None
      else if b <? 128 then pre [b] (p_chars r)
      else match rune_more s, r with
           | Some 1%nat, c :: r1 => pre [b; c] (p_chars r1)
           | Some 2%nat, c :: d :: r2 => pre [b; c; d] (p_chars r2)
           | Some 3%nat, c :: d :: e :: r3 => pre [b; c; d; e] (p_chars r3)
           | _, _ => pre (utf8_rune 65533) (p_chars r)
           end
  end.

(** Numbers: stateNeg to stateE0; the text is kept. *)
Definition is_dig (c : Z) : bool := in_range 48 57 c.
Fixpoint span_dig (s : bytes) : bytes * bytes :=
  match s with
  | c :: r => if is_dig c then let '(a, b) := span_dig r in (c :: a, b) else ([], s)
  | [] => ([], [])
  end.
Definition p_exp (s : bytes) : option (bytes * bytes) :=
  match s with
  | c :: r =>
      if (c =? 101) || (c =? 69) then
        let '(sg, r1) := match r with x :: r' => if (x =? 43) || (x =? 45) then ([x], r') else ([], r) | [] => ([], r) end in
        let '(d, r2) := span_dig r1 in
        match d with [] => None | _ => Some (c :: sg ++ d, r2) end
      else Some ([], s)
  | [] => Some ([], [])
  end.
Definition p_frac (s : bytes) : option (bytes * bytes) :=
  match s with
  | c :: r =>
      if c =? 46 then
        let '(d, r1) := span_dig r in
        match d with [] => None | _ => pre (c :: d) (p_exp r1) end
      else p_exp s
  | [] => p_exp s
  end.
Definition p_num (s : bytes) : option (bytes * bytes) :=
  let '(sg, r) := match s with c :: r => if c =? 45 then ([c], r) else ([], s) | [] => ([], s) end in
  match r with
  | c :: r1 =>
      if c =? 48 then pre (sg ++ [c]) (p_frac r1)
      else if is_dig c then let '(d, r2) := span_dig r1 in pre (sg ++ c :: d) (p_frac r2)
      else None
  | [] => None
  end.

(** The largest depth of nesting. *)
Definition max_depth : Z := 10000.

(** Values, members of objects, elements of arrays; [d] is the depth.  The fuel
    is the length of the text. *)
Fixpoint p_val (fuel : nat) (d : Z) (s : bytes) : jres json :=
  match fuel with
  | O => JFuel
  | S n =>
      match skip_ws s with
      | [] => JErr
      | c :: r =>
          if c =? 123 then
            if max_depth <=? d then JErr
            else match skip_ws r with
                 | [] => JErr
                 | x :: r1 =>
                     if x =? 125 then JOk (JObj []) r1
                     else match p_members n (d + 1) r with
                          | JOk l r2 => JOk (JObj l) r2
                          | JErr => JErr
                          | JFuel => JFuel
                          end
                 end
          else if c =? 91 then
            if max_depth <=? d then JErr
            else match skip_ws r with
                 | [] => JErr
                 | x :: r1 =>
                     if x =? 93 then JOk (JArr []) r1
                     else match p_elems n (d + 1) r with
                          | JOk l r2 => JOk (JArr l) r2
                          | JErr => JErr
                          | JFuel => JFuel
                          end
                 end
          else if c =? 34 then match p_chars r with Some (t, r1) => JOk (JStr t) r1 | None => JErr end
          else if has_prefix (c :: r) (str "null") then JOk JNull (skipn 4 (c :: r))
          else if has_prefix (c :: r) (str "true") then JOk (JBool true) (skipn 4 (c :: r))
          else if has_prefix (c :: r) (str "false") then JOk (JBool false) (skipn 5 (c :: r))
          else match p_num (c :: r) with Some (t, r1) => JOk (JNum t) r1 | None => JErr end
      end
  end
with p_members (fuel : nat) (d : Z) (s : bytes) : jres (list (bytes * json)) :=
  match fuel with
  | O => JFuel
  | S n =>
      match skip_ws s with
      | [] => JErr
      | c :: r =>
          if c =? 34 then
            match p_chars r with
            | None => JErr
            | Some (k, r1) =>
                match skip_ws r1 with
                | [] => JErr
                | x :: r2 =>
                    if x =? 58 then
                      match p_val n d r2 with
                      | JOk v r3 =>
                          match skip_ws r3 with
                          | [] => JErr
                          | y :: r4 =>
                              if y =? 44 then
                                match p_members n d r4 with
                                | JOk l r5 => JOk ((k, v) :: l) r5
                                | JErr => JErr
                                | JFuel => JFuel
                                end
                              else if y =? 125 then JOk [(k, v)] r4
                              else JErr
                          end
                      | JErr => JErr
                      | JFuel => JFuel
                      end
                    else JErr
                end
            end
          else JErr
      end
  end
with p_elems (fuel : nat) (d : Z) (s : bytes) : jres (list json) :=
  match fuel with
  | O => JFuel
  | S n =>
      match p_val n d s with
      | JOk v r3 =>
          match skip_ws r3 with
          | [] => JErr
          | y :: r4 =>
              if y =? 44 then
                match p_elems n d r4 with
                | JOk l r5 => JOk (v :: l) r5
                | JErr => JErr
                | JFuel => JFuel
                end
              else if y =? 93 then JOk [v] r4
              else JErr
          end
      | JErr => JErr
      | JFuel => JFuel
      end
  end.

(** A whole text: nothing but white space may follow. *)
Definition parse_json (s : bytes) : jres json :=
  match p_val (2 * length s + 2) 0 s with
  | JOk v r => match skip_ws r with [] => JOk v [] | _ => JErr end
  | JErr => JErr
  | JFuel => JFuel
  end.
