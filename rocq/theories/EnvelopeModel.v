(** Protocol messages: /repo/envelopes.go, /repo/envelopes_default.go, and the text scanners of /repo/helpers.go:121-218. *)
From Verif Require Import Base JsonSpec EventModel TagsModel FilterModel JLexModel.
Local Open Scope nat_scope.

(** ** gjson (third party), as far as the envelopes use it *)
(** A result: Raw, Str (unescaped text, empty unless it is a string), and whether it is an object. *)
Record gval := mkG { g_raw : str; g_str : str; g_obj : bool }.

(** gjson.unescape: stops at the first malformed escape or control byte *)
Fixpoint g_unescape (s : str) : str :=
  match s with
  | [] => []
  | c :: r =>
    if ceqb c bslash then
      match r with
      | [] => []
      | e :: r1 =>
        if ceqb e "u"%char then
          match r1 with
          | h1 :: h2 :: h3 :: h4 :: r2 =>
            match hex4 h1 h2 h3 h4 with
            | None => utf8 0 ++ g_unescape r2 (* runeit ignores the parse error and yields 0 *)
            | Some cp =>
              if is_surrogate cp then
                match r2 with
                | b' :: u' :: l1 :: l2 :: l3 :: l4 :: r3 =>
                  if ceqb b' bslash && ceqb u' "u"%char then
                    match hex4 l1 l2 l3 l4 with
                    | Some lo =>
                      if is_high cp && is_low lo
                      then utf8 (0x10000 + (cp - 0xD800) * 1024 + (lo - 0xDC00))%N ++ g_unescape r3
                      else utf8 0xFFFD ++ g_unescape r3
                    | None => utf8 0xFFFD ++ g_unescape r3
                    end
                  else utf8 0xFFFD ++ g_unescape r2
                | _ => utf8 0xFFFD ++ g_unescape r2
                end
              else utf8 cp ++ g_unescape r2
            end
          | _ => []
          end
        else match simple_escape e with
             | Some v => v :: g_unescape r1
             | None => []
             end
      end
    else if (val c <? 32)%N then [] else c :: g_unescape r
  end.
Definition has_bslash (s : str) : bool := existsb (fun c => ceqb c bslash) s.

(** gjson.tostr: a string without escapes is returned as it is. *)
Definition g_text (raw : str) : str := if has_bslash raw then g_unescape raw else raw.

(** gjson.squash after the opening bracket, at the given depth (at least 1): the text through the bracket that brings
    the depth to 0, and the rest. The backslash-counting loop for closing quotes is [raw_string]. *)
Fixpoint squash (fuel : nat) (depth : nat) (s : str) : str * str :=
  match fuel with
  | O => (s, [])
  | S f =>
    match s with
    | [] => ([], [])
    | c :: r =>
      if ceqb c quote then
        match raw_string r with
        | Some (t, r') => let '(a, b) := squash f depth r' in (c :: t ++ quote :: a, b)
        | None => (s, [])
        end
      else if ceqb c "{"%char || ceqb c "["%char || ceqb c "("%char then
        let '(a, b) := squash f (S depth) r in (c :: a, b)
      else if ceqb c "}"%char || ceqb c "]"%char || ceqb c ")"%char then
        match depth with
        | S (S d) => let '(a, b) := squash f (S d) r in (c :: a, b)
        | _ => ([c], r)
        end
      else let '(a, b) := squash f depth r in (c :: a, b)
    end
  end.

(** gjson.tonum and tolit. Simplification of tonum: it stops at the same bytes for the texts at hand. *)
Definition g_num_end (c : ascii) : bool := (val c <=? 32)%N || ceqb c ","%char || ceqb c "]"%char || ceqb c "}"%char.
Fixpoint g_span (stop : ascii -> bool) (s : str) : str * str :=
  match s with
  | [] => ([], [])
  | c :: r => if stop c then ([], s) else let '(a, b) := g_span stop r in (c :: a, b)
  end.
Definition is_lower (c : ascii) : bool := (97 <=? val c)%N && (val c <=? 122)%N.

(** gjson.Result.arrayOrMap('[', false), from after the opening bracket *)
Fixpoint g_elems (fuel : nat) (s : str) : list gval :=
  match fuel with
  | O => []
  | S f =>
    match s with
    | [] => []
    | c :: r =>
      if (val c <=? 32)%N then g_elems f r
      else if ceqb c "]"%char || ceqb c "}"%char then []
      else if ceqb c "{"%char || ceqb c "["%char then
        let '(a, b) := squash (S (length r)) 1 r in mkG (c :: a) [] (ceqb c "{"%char) :: g_elems f b
      else if ceqb c quote then
        match raw_string r with
        | Some (t, r') => mkG (quote :: t ++ [quote]) (g_text t) false :: g_elems f r'
        | None => [mkG s r false]
        end
      else if is_digit c || ceqb c "-"%char then
        let '(a, b) := g_span g_num_end r in mkG (c :: a) [] false :: g_elems f b
      else if ceqb c "n"%char || ceqb c "t"%char || ceqb c "f"%char then
        let '(a, b) := g_span (fun x => negb (is_lower x)) r in mkG (c :: a) [] false :: g_elems f b
      else g_elems f r
    end
  end.

(** gjson.Parse(data).Array(). A top-level value that is not an array gives one result (its parts are irrelevant: every
    FromJSON wants at least two). *)
Definition g_array (data : str) : list gval :=
  match g_span (fun c => negb (val c <=? 32)%N) data with
  | (_, c :: r) => if ceqb c "["%char then g_elems (S (length r)) r else [mkG data [] false]
  | (_, []) => []
  end.

(** ** jsoniter (third party): json.Marshal of a string without HTML escaping; bytes above 0x7f are copied *)
Definition jit_string (s : str) : str := quote :: flat_map jw_ascii s ++ [quote].

(** ** Messages: envelopes.go:88-91, 128-131, 171-176, 252, 279, 306, 336-339, 377-381, 421-424 *)
Inductive envelope :=
| EEvent (sub : option str) (e : event)
| EReq (sub : str) (fs : list nfilter)
| ECount (sub : str) (f : nfilter) (count : option Z) (hll : option str)
| ENotice (s : str)
| EEose (s : str)
| EClose (s : str)
| EClosed (sub reason : str)
| EOk (id : str) (ok : bool) (reason : str)
| EAuth (challenge : option str) (e : event).

(** envelopes.go:229-234: hllHex := make([]byte, 512); hex.Encode(hllHex, hll) panics when it does not fit,
    and leaves zero bytes behind a short value *)
Definition hll_hex (h : str) : outcome str :=
  if Nat.ltb 512 (2 * length h) then Panic else Ok (hex_encode h ++ repeat (byte_of 0) (512 - 2 * length h)).

(** The MarshalJSON methods: envelopes.go:111-122, 153-163, 221-246, 269-275, 296-302, 326-332, 362-370, 403-417, 448-458 *)
Definition marshal (m : envelope) : outcome str :=
  match m with
  | EEvent sub e =>
    Ok (B "[""EVENT""," ++ (match sub with Some s => [quote] ++ s ++ [quote; ","%char] | None => [] end) ++ encode_event e ++ B "]")
  | EReq sub fs => Ok (B "[""REQ"",""" ++ sub ++ [quote] ++ flat_map (fun f => ","%char :: encode_filter f) fs ++ B "]")
  | ECount sub f count hll =>
    obind (match count with
           | Some n =>
             obind (match hll with
                    | Some h => obind (hll_hex h) (fun x => Ok (B ",""hll"":""" ++ x ++ [quote]))
                    | None => Ok []
                    end) (fun t => Ok (B "{""count"":" ++ dec_Z n ++ t ++ B "}"))
           | None => Ok (encode_filter f)
           end) (fun body => Ok (B "[""COUNT"",""" ++ sub ++ [quote; ","%char] ++ body ++ B "]"))
  | ENotice s => Ok (B "[""NOTICE""," ++ jit_string s ++ B "]")
  | EEose s => Ok (B "[""EOSE""," ++ jit_string s ++ B "]")
  | EClose s => Ok (B "[""CLOSE""," ++ jit_string s ++ B "]")
  | EClosed s r => Ok (B "[""CLOSED""," ++ jit_string s ++ B "," ++ jit_string r ++ B "]")
  | EOk id ok r => Ok (B "[""OK"",""" ++ id ++ [quote; ","%char] ++ (if ok then B "true" else B "false") ++ B "," ++ jit_string r ++ B "]")
  | EAuth (Some c) _ => Ok (B "[""AUTH""," ++ jit_string c ++ B "]")
  | EAuth None e => Ok (B "[""AUTH""," ++ encode_event e ++ B "]")
  end.

Definition omap {A C} (f : A -> C) (o : outcome A) : outcome C := obind o (fun a => Ok (f a)).

(** envelopes.go:148-157: filters decoded one by one, each into a zero filter *)
Fixpoint decode_filters (l : list gval) : outcome (list nfilter) :=
  match l with
  | [] => Ok []
  | g :: l' => obind (decode_filter (g_raw g)) (fun f => omap (cons f) (decode_filters l'))
  end.
(** envelopes.go:206-216: several filters are decoded into the same one *)
Fixpoint decode_onto (f : nfilter) (l : list gval) : outcome nfilter :=
  match l with
  | [] => Ok f
  | g :: l' => obind (decode_filter_into f (g_raw g)) (fun f' => decode_onto f' l')
  end.

(** envelopes.go:192-196: json.Unmarshal into struct{Count *int64; HLL string}. Simplification: the text is read by the
    reference reader; unknown fields are ignored, a field of the wrong type makes the whole an error. *)
Fixpoint count_fields (l : list (str * json)) (count : option Z) (hll : str) : option (option Z * str) :=
  match l with
  | [] => Some (count, hll)
  | (k, v) :: l' =>
    if seqb k (B "count") then
      match v with
      | JNull => count_fields l' None hll
      | JNum t => match parse_int t with Some z => count_fields l' (Some z) hll | None => None end
      | _ => None
      end
    else if seqb k (B "hll") then
      match v with JStr s => count_fields l' count s | JNull => count_fields l' count hll | _ => None end
    else count_fields l' count hll
  end.
Definition count_result (raw : str) : option (Z * str) :=
  match json_parse raw with
  | Some (JObj l) => match count_fields l None [] with Some (Some z, h) => Some (z, h) | _ => None end
  | _ => None
  end.

(** The FromJSON methods: envelopes.go:95-109, 135-160, 185-219, 259-267, 286-294, 313-324, 348-360, 390-401, 433-446 *)
Definition from_json (label data : str) : outcome envelope :=
  let arr := g_array data in
  if seqb label (B "EVENT") then
    match arr with
    | [_; b] => omap (EEvent None) (decode_event (g_raw b))
    | [_; s; b] => omap (EEvent (Some (g_str s))) (decode_event (g_raw b))
    | _ => Err
    end
  else if seqb label (B "REQ") then
    match arr with
    | _ :: s :: g :: fs => omap (EReq (g_str s)) (decode_filters (g :: fs))
    | _ => Err
    end
  else if seqb label (B "COUNT") then
    match arr with
    | _ :: s :: g :: fs =>
      match count_result (g_raw g) with
      | Some (n, h) =>
        if Nat.eqb (length h) 512 then
          match hex_decode h with
          | Some x => Ok (ECount (g_str s) zero_filter (Some n) (Some x))
          | None => Err
          end
        else Ok (ECount (g_str s) zero_filter (Some n) None)
      | None => omap (fun f => ECount (g_str s) f None None) (decode_onto zero_filter (g :: fs))
      end
    | _ => Err
    end
  else if seqb label (B "NOTICE") then match arr with _ :: s :: _ => Ok (ENotice (g_str s)) | _ => Err end
  else if seqb label (B "EOSE") then match arr with _ :: s :: _ => Ok (EEose (g_str s)) | _ => Err end
  else if seqb label (B "OK") then
    match arr with
    | _ :: i :: o :: r :: _ => Ok (EOk (g_str i) (seqb (g_raw o) (B "true")) (g_str r))
    | _ => Err
    end
  else if seqb label (B "AUTH") then
    match arr with
    | _ :: c :: _ => if g_obj c then omap (EAuth None) (decode_event (g_raw c)) else Ok (EAuth (Some (g_str c)) zero_event)
    | _ => Err
    end
  else if seqb label (B "CLOSED") then match arr with [_; s; r] => Ok (EClosed (g_str s) (g_str r)) | _ => Err end
  else if seqb label (B "CLOSE") then match arr with [_; s] => Ok (EClose (g_str s)) | _ => Err end
  else Err.

(** The text up to the next quote and what follows it: strings.IndexRune(s, quote) *)
Fixpoint cut_quote (s : str) : option (str * str) :=
  match s with
  | [] => None
  | c :: r => if ceqb c quote then Some ([], r) else match cut_quote r with Some (a, b) => Some (c :: a, b) | None => None end
  end.

(** envelopes_default.go:18-56 *)
Definition parse_message (msg : str) : outcome envelope :=
  match cut_quote msg with
  | None => Err
  | Some (_, r) =>
    match cut_quote r with
    | None => Err
    | Some (label, _) => from_json label msg
    end
  end.

(** ** Scanners. [after p s]: the text behind the first occurrence of p, as strings.Index and slicing give it. *)
Fixpoint after (p s : str) : option str :=
  if has_prefix s p then Some (skipn (length p) s)
  else match s with [] => None | _ :: r => after p r end.

(** helpers.go:121-141; the slice [start : start-1] panics when there is no closing quote *)
Definition extract_sub_id (s : str) : outcome str :=
  match after (B """EVENT""") s with
  | None => Ok []
  | Some r =>
    match cut_quote r with
    | None => Ok []
    | Some (_, r1) => match cut_quote r1 with Some (t, _) => Ok t | None => Panic end
    end
  end.
(** 64 bytes after the next quote (helpers.go:150-155, 165-170). IndexRune returns -1 when there is no quote: the
    start then is the position just behind the pattern. *)
Definition take64 (r : str) : outcome str :=
  let start := match cut_quote r with Some (_, r1) => r1 | None => r end in
  if Nat.ltb (length start) 64 then Panic else Ok (firstn 64 start).
(** helpers.go:143-156 *)
Definition extract_event_id (s : str) : outcome str :=
  match after (B """id""") s with None => Ok [] | Some r => take64 r end.
(** helpers.go:158-171 *)
Definition extract_pubkey (s : str) : outcome str :=
  match after (B """pubkey""") s with None => Ok [] | Some r => take64 r end.
(** helpers.go:173-192 *)
Definition extract_d_tag (s : str) : str :=
  match after (B "[""d""") s with
  | None => []
  | Some r =>
    let start := match cut_quote r with Some (_, r1) => r1 | None => r end in
    match cut_quote start with Some (t, _) => t | None => [] end
  end.
(** helpers.go:194-218; ParseInt's error is dropped: on a range error its value is the nearest bound, otherwise 0 *)
Definition lenient_int (s : str) : Z :=
  match parse_int s with
  | Some z => z
  | None => match parse_digits s with Some _ => max_int64 | None => 0%Z end
  end.
Definition extract_timestamp (s : str) : Z :=
  match after (B """created_at""") s with
  | None => 0%Z
  | Some r =>
    match g_span is_digit r with
    | (_, []) => 0%Z
    | (_, d) =>
      match g_span (fun c => ceqb c ","%char || ceqb c "}"%char || ceqb c " "%char) d with
      | (_, []) => 0%Z
      | (t, _) => lenient_int t
      end
    end
  end.

Example demo_event_msg : match marshal (EEvent (Some (B "1:x")) demo_ev) with Ok t => parse_message t | _ => Err end = Ok (EEvent (Some (B "1:x")) demo_ev).
Proof. vm_compute. reflexivity. Qed.
Example demo_req_msg : match marshal (EReq (B "1:x") [demo_f; zero_filter]) with Ok t => parse_message t | _ => Err end = Ok (EReq (B "1:x") [demo_f; zero_filter]).
Proof. vm_compute. reflexivity. Qed.
Example demo_count_msg : match marshal (ECount (B "1:x") zero_filter (Some (-4)%Z) (Some (repeat (byte_of 200) 256))) with Ok t => parse_message t | _ => Err end
  = Ok (ECount (B "1:x") zero_filter (Some (-4)%Z) (Some (repeat (byte_of 200) 256))).
Proof. vm_compute. reflexivity. Qed.
Example demo_scan : match marshal (EEvent (Some (B "1:x")) demo_ev) with Ok t => extract_sub_id t | _ => Err end = Ok (B "1:x").
Proof. vm_compute. reflexivity. Qed.
