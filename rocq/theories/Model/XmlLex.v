(** The decoder of encoding/xml on octets, as sync/lib/rrdp.go:68-75, 96-106
    and ca/xml.go:75-133 use it: xml.NewDecoder without further settings, so
    Strict, without entities of its own and without a CharsetReader.

    The standard library is not part of /repo; the definitions follow its
    xml.go.  Only whether there is an error matters, not which one: GetXML's
    callers drop the error of Token (rrdp.go:75, 106).  Where the decoder puts
    an octet back, the octet simply stays in the rest of the input. *)
From Coq Require Import String.
From Verif.Model Require Import Base Str Der NetText Json Cache Rrdp RrdpXml.

(** ** Characters *)

(** unicode/utf8.DecodeRune; [None] is RuneError with size 1 *)
Definition next_rune (s : bytes) : option (Z * bytes) :=
  match s with
  | [] => None
  | b :: r =>
      if b <? 128 then Some (b, r)
      else match rune_more s, r with
           | Some 1%nat, c :: r1 => Some ((b - 192) * 64 + (c - 128), r1)
           | Some 2%nat, c :: d :: r2 => Some ((b - 224) * 4096 + (c - 128) * 64 + (d - 128), r2)
           | Some 3%nat, c :: d :: e :: r3 =>
               Some ((b - 240) * 262144 + (c - 128) * 4096 + (d - 128) * 64 + (e - 128), r3)
           | _, _ => None
           end
  end.
(** All characters of the text satisfy [ok]. *)
Fixpoint runes_all (ok : Z -> bool) (fuel : nat) (s : bytes) : bool :=
  match s, fuel with
  | [], _ => true
  | _, O => false
  | _, S k => match next_rune s with Some (c, r) => ok c && runes_all ok k r | None => false end
  end.

(** isInCharacterRange *)
Definition xml_char (c : Z) : bool :=
  (c =? 9) || (c =? 10) || (c =? 13) || in_range 32 55295 c || in_range 57344 65533 c || in_range 65536 1114111 c.

(** isNameByte *)
Definition name_byte (b : Z) : bool :=
  in_range 65 90 b || in_range 97 122 b || in_range 48 57 b || (b =? 95) || (b =? 58) || (b =? 46) || (b =? 45).

Fixpoint span (p : Z -> bool) (s : bytes) : bytes * bytes :=
  match s with
  | b :: r => if p b then let (x, y) := span p r in (b :: x, y) else ([], s)
  | [] => ([], [])
  end.

(** Decoder.space *)
Definition xml_space (b : Z) : bool := (b =? 32) || (b =? 13) || (b =? 10) || (b =? 9).
Definition spaces (s : bytes) : bytes := snd (span xml_space s).

(** ** Character entities: the part of Decoder.text between & and the first
    semicolon.  Entities that cannot be resolved are errors. *)
Definition hex_digit (b : Z) : bool := in_range 48 57 b || in_range 97 102 b || in_range 65 70 b.
Definition hex_val (b : Z) : Z := if b <=? 57 then b - 48 else if b <=? 70 then b - 55 else b - 87.
(** string(rune(n)) *)
Definition rune_text (n : Z) : bytes := if in_range 55296 57343 n then utf8_rune 65533 else utf8_rune n.
Definition number_entity (digit : Z -> bool) (val : Z -> Z) (base : Z) (s : bytes) : option bytes :=
  match s with
  | [] => None
  | _ => if forallb digit s then
           let n := horner base val s in
           if n <=? 1114111 then Some (rune_text n) else None
         else None
  end.
Definition entity (e : bytes) : option bytes :=
  if has_prefix e (str "#x") then number_entity hex_digit hex_val 16 (skipn 2 e)
  else if has_prefix e (str "#") then number_entity is_digit dval 10 (skipn 1 e)
  else if beq e (str "lt") then Some [60] else if beq e (str "gt") then Some [62]
  else if beq e (str "amp") then Some [38] else if beq e (str "apos") then Some [39]
  else if beq e (str "quot") then Some [34] else None.

Definition pre_text (t : bytes) (x : option (bytes * bytes)) : option (bytes * bytes) :=
  match x with Some (d, r) => Some (t ++ d, r) | None => None end.

(** The loop of Decoder.text.  [amp] collects an entity, [b0] and [b1] are the
    octets before. *)
Fixpoint text_go (quote : option Z) (cdata : bool) (amp : option bytes) (b0 b1 : Z) (s : bytes)
  : option (bytes * bytes) :=
  match s with
  | [] => match amp with Some _ => None | None => if cdata then None else Some ([], []) end
  | b :: r =>
      match amp with
      | Some e =>
          if b =? 59 then
            match entity e with Some t => pre_text t (text_go quote cdata None 0 0 r) | None => None end
          else text_go quote cdata (Some (e ++ [b])) 0 0 r
      | None =>
          if match quote with None => (b0 =? 93) && (b1 =? 93) && (b =? 62) | Some _ => false end
          then (if cdata then Some ([], r) else None)
          else if (b =? 60) && negb cdata
          then (match quote with Some _ => None | None => Some ([], s) end)
          else if match quote with Some q => b =? q | None => false end then Some ([], r)
          else if (b =? 38) && negb cdata then text_go quote cdata (Some []) 0 0 r
          else pre_text (if b =? 13 then [10] else if (b1 =? 13) && (b =? 10) then [] else [b])
                        (text_go quote cdata None b1 b r)
      end
  end.
(** Decoder.text *)
Definition text (quote : option Z) (cdata : bool) (s : bytes) : option (bytes * bytes) :=
  match text_go quote cdata None 0 0 s with
  | None => None
  | Some (d, r) =>
      let d := if cdata then firstn (List.length d - 2) d else d in
      if runes_all xml_char (List.length d) d then Some (d, r) else None
  end.

(** ** Processing instructions *)

(** The part after the first occurrence of [p] (strings.Index). *)
Fixpoint after (p s : bytes) : option bytes :=
  if has_prefix s p then Some (skipn (List.length p) s)
  else match s with [] => None | _ :: r => after p r end.
(** procInst *)
Definition proc_inst (param s : bytes) : bytes :=
  match after (param ++ [61]) s with
  | Some (q :: v) =>
      if (q =? 39) || (q =? 34) then
        let (x, y) := span (fun b => negb (b =? q)) v in
        match y with [] => [] | _ => x end
      else []
  | _ => []
  end.
(** The encodings that need no CharsetReader: strings.EqualFold *)
Definition lower (b : Z) : Z := if in_range 65 90 b then b + 32 else b.
Definition decl_ok (data : bytes) : bool :=
  let v := proc_inst (str "version") data in
  let e := proc_inst (str "encoding") data in
  (beq v [] || beq v (str "1.0")) && (beq e [] || beq (map lower e) (str "utf-8")).
Fixpoint pi_go (b0 : Z) (s : bytes) : option (bytes * bytes) :=
  match s with
  | [] => None
  | b :: r => if (b0 =? 63) && (b =? 62) then Some ([b], r) else pre_text [b] (pi_go b r)
  end.

(** ** Comments and directives *)
Fixpoint comment_go (b0 b1 : Z) (s : bytes) : option bytes :=
  match s with
  | [] => None
  | b :: r => if (b0 =? 45) && (b1 =? 45) then (if b =? 62 then Some r else None) else comment_go b1 b r
  end.

(** In a directive: outside of comments, after a < and [k] octets of !--, in
    a comment. *)
Inductive dmode := DText | DLt (k : nat) | DComment (b0 b1 : Z).
(** The label HandleB: the quote that is open (0 for none) and the depth. *)
Definition handle_b (inquote : Z) (depth : nat) (b : Z) : dmode * Z * nat :=
  if b =? inquote then (DText, 0, depth)
  else if negb (inquote =? 0) then (DText, inquote, depth)
  else if (b =? 39) || (b =? 34) then (DText, b, depth)
  else if b =? 62 then (DText, inquote, pred depth)
  else if b =? 60 then (DLt 0, inquote, depth)
  else (DText, inquote, depth).
Fixpoint directive_go (m : dmode) (inquote : Z) (depth : nat) (s : bytes) : option bytes :=
  match s with
  | [] => None
  | b :: r =>
      match m with
      | DText =>
          if (inquote =? 0) && (b =? 62) && (depth =? 0)%nat then Some r
          else let '(m', q', d') := handle_b inquote depth b in directive_go m' q' d' r
      | DLt k =>
          if b =? nth k [33; 45; 45] 0 then
            directive_go (if (k =? 2)%nat then DComment 0 0 else DLt (S k)) inquote depth r
          else let '(m', q', d') := handle_b inquote (S depth) b in directive_go m' q' d' r
      | DComment b0 b1 =>
          if (b0 =? 45) && (b1 =? 45) && (b =? 62) then directive_go DText inquote depth r
          else directive_go (DComment b1 b) inquote depth r
      end
  end.

(** ** Names and tags *)
Section Lexer.
(** The tables [first] and [second] for characters beyond ASCII. *)
Variable first_more second_more : Z -> bool.
(** Whether names with several colons are refused; versions differ. *)
Variable refuse_colons : bool.

Definition name_first (c : Z) : bool :=
  if c <? 128 then (c =? 58) || in_range 65 90 c || (c =? 95) || in_range 97 122 c else first_more c.
Definition name_second (c : Z) : bool :=
  if c <? 128 then (c =? 45) || (c =? 46) || in_range 48 57 c else second_more c.
(** isName *)
Definition is_name (s : bytes) : bool :=
  match next_rune s with
  | Some (c, r) => name_first c && runes_all (fun c => name_first c || name_second c) (List.length r) r
  | None => false
  end.
(** Decoder.name: there must be an octet after the name. *)
Definition read_name (s : bytes) : option (bytes * bytes) :=
  let (n, r) := span (fun b => (128 <=? b) || name_byte b) s in
  match n, r with
  | _ :: _, _ :: _ => if is_name n then Some (n, r) else None
  | _, _ => None
  end.

(** Decoder.nsname: prefix and local part *)
Definition colons (s : bytes) : nat := List.length (filter (Z.eqb 58) s).
Definition split_name (s : bytes) : bytes * bytes :=
  let (p, l) := span (fun b => negb (b =? 58)) s in
  if (colons s =? 1)%nat && negb (beq p []) && negb (beq (tl l) []) then (p, tl l) else ([], s).
Definition local (s : bytes) : bytes := snd (split_name s).
Definition read_nsname (s : bytes) : option (bytes * bytes) :=
  match read_name s with
  | Some (n, r) => if refuse_colons && (1 <? colons n)%nat then None else Some (n, r)
  | None => None
  end.

(** The attributes and the end of a start tag; [true] if the tag also closes. *)
Fixpoint read_attrs (fuel : nat) (s : bytes) : option (list (bytes * bytes) * bool * bytes) :=
  match fuel with
  | O => None
  | S k =>
      let s1 := spaces s in
      if has_prefix s1 (str "/>") then Some ([], true, skipn 2 s1)
      else if has_prefix s1 (str ">") then Some ([], false, skipn 1 s1)
      else
        match read_nsname s1 with
        | None => None
        | Some (n, s2) =>
            if has_prefix (spaces s2) (str "=") then
              match spaces (skipn 1 (spaces s2)) with
              | q :: s4 =>
                  if (q =? 34) || (q =? 39) then
                    match text (Some q) false s4 with
                    | None => None
                    | Some (v, s5) =>
                        match read_attrs k s5 with
                        | Some (l, e, r) => Some ((n, v) :: l, e, r)
                        | None => None
                        end
                    end
                  else None
              | [] => None
              end
            else None
        end
  end.

(** Decoder.rawToken on a non-empty input; names as they are written. *)
Inductive rtok :=
| RStart (n : bytes) (attrs : list (bytes * bytes)) (empty : bool)
| REnd (n : bytes)
| RText (t : bytes)
| RMisc.
Definition misc (x : option bytes) : option (rtok * bytes) :=
  match x with Some r => Some (RMisc, r) | None => None end.
Definition end_tag (s : bytes) : option (rtok * bytes) :=
  match read_nsname s with
  | Some (n, r) => if has_prefix (spaces r) (str ">") then Some (REnd n, skipn 1 (spaces r)) else None
  | None => None
  end.
Definition instruction (s : bytes) : option (rtok * bytes) :=
  match read_name s with
  | Some (n, r) =>
      match pi_go 0 (spaces r) with
      | Some (d, r2) =>
          if beq n (str "xml") && negb (decl_ok (firstn (List.length d - 2) d)) then None
          else Some (RMisc, r2)
      | None => None
      end
  | None => None
  end.
Definition start_tag (s : bytes) : option (rtok * bytes) :=
  match read_nsname s with
  | Some (n, r) =>
      match read_attrs (S (List.length r)) r with
      | Some (a, e, r2) => Some (RStart n a e, r2)
      | None => None
      end
  | None => None
  end.
Definition some_text (x : option (bytes * bytes)) : option (rtok * bytes) :=
  match x with Some (t, r) => Some (RText t, r) | None => None end.
Definition raw_token (s : bytes) : option (rtok * bytes) :=
  if has_prefix s (str "</") then end_tag (skipn 2 s)
  else if has_prefix s (str "<?") then instruction (skipn 2 s)
  else if has_prefix s (str "<!--") then misc (comment_go 0 0 (skipn 4 s))
  else if has_prefix s (str "<!-") then None
  else if has_prefix s (str "<![CDATA[") then some_text (text None true (skipn 9 s))
  else if has_prefix s (str "<![") then None
  else if has_prefix s (str "<!") then
    match skipn 2 s with _ :: r => misc (directive_go DText 0 0 r) | [] => None end
  else if has_prefix s (str "<") then start_tag (skipn 1 s)
  else some_text (text None false s).

(** Decoder.Token, until it returns nil.  A token comes with the input before
    and after it; both ends of an element that closes itself come out. *)
Inductive tok :=
| KStart (n : bytes) (attrs : list (bytes * bytes))
| KEnd
| KText (t : bytes)
| KMisc.
Definition ptok : Type := tok * bytes * bytes.
Inductive ending := AtEnd | Broken | NoFuel.
Definition after_tok (t : list ptok) (x : list ptok * ending) : list ptok * ending := (t ++ fst x, snd x).
Fixpoint lex (fuel : nat) (stack : list bytes) (s : bytes) : list ptok * ending :=
  match fuel with
  | O => ([], NoFuel)
  | S k =>
      match s with
      | [] => ([], match stack with [] => AtEnd | _ => Broken end)
      | _ =>
          match raw_token s with
          | None => ([], Broken)
          | Some (RStart n a e, r) =>
              if e then after_tok [(KStart n a, s, r); (KEnd, r, r)] (lex k stack r)
              else after_tok [(KStart n a, s, r)] (lex k (n :: stack) r)
          | Some (REnd n, r) =>
              match stack with
              | m :: stack' => if beq n m then after_tok [(KEnd, s, r)] (lex k stack' r) else ([], Broken)
              | [] => ([], Broken)
              end
          | Some (RText t, r) => after_tok [(KText t, s, r)] (lex k stack r)
          | Some (RMisc, r) => after_tok [(KMisc, s, r)] (lex k stack r)
          end
      end
  end.
Definition lex_all (s : bytes) : list ptok * ending := lex (S (List.length s)) [] s.

(** What the structs of rrdp_struct.go see of a token: local names. *)
Definition seen (t : tok) : xtok :=
  match t with
  | KStart n a => XStart (local n) (map (fun x => (local (fst x), snd x)) a)
  | KEnd => XEnd
  | KText t => XText t
  | KMisc => XOther
  end.
Definition xml_tokens (s : bytes) : list xtok := map (fun p => seen (fst (fst p))) (fst (lex_all s)).

(** rrdp.go:96-151 ParseNode, 68-94 ParseRoot and 182-377 FetchRRDP on the
    octets of the documents. *)
Definition parse_node_octets (s : bytes) : xres doc := parse_node (xml_tokens s).
Definition parse_root_octets (s : bytes) : xres notif := parse_root (xml_tokens s).
Definition fetch_octets {St} (cb : event -> St -> St * verdict) (get : bytes -> option bytes)
  (path ls : bytes) (last : Z) (s : St) : St * outcome :=
  fetch_xml cb (fun u => option_map xml_tokens (get u)) path ls last s.
End Lexer.
