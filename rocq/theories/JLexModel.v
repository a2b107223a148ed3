(** The easyjson reader and writer as used by /repo/event_easyjson.go and /repo/filter_easyjson.go.
    jlexer and jwriter are third-party (github.com/mailru/easyjson): their behaviour is re-modelled here
    from their documentation and known source; see DESIGN.md. *)
From Verif Require Import Base JsonSpec EventModel TagsModel FilterModel.
Local Open Scope N_scope.

(** ** Writer: jwriter.Writer{NoEscapeHTML: true}.String *)
Definition jw_ascii (c : ascii) : str :=
  let n := val c in
  if n =? 9 then [bslash; "t"%char]
  else if n =? 13 then [bslash; "r"%char]
  else if n =? 10 then [bslash; "n"%char]
  else if ceqb c bslash then [bslash; bslash]
  else if ceqb c quote then [bslash; quote]
  else if n <? 32 then [bslash; "u"; "0"; "0"; hex_digit (n / 16); hex_digit (n mod 16)]%char
  else [c].

Definition jw_bad : str := bslash :: B "ufffd".
Definition within (lo hi : N) (c : ascii) : bool := (lo <=? val c) && (val c <=? hi).

(** One pass over the string, after utf8.DecodeRuneInString; a byte sequence that is not UTF-8 is replaced byte by byte. *)
Fixpoint jw_chars (s : str) : str :=
  match s with
  | [] => []
  | c :: r =>
    let n := val c in
    if n <? 0x80 then jw_ascii c ++ jw_chars r
    else if within 0xC2 0xDF c then
      match r with
      | c1 :: r1 => if within 0x80 0xBF c1 then c :: c1 :: jw_chars r1 else jw_bad ++ jw_chars r
      | [] => jw_bad
      end
    else if within 0xE0 0xEF c then
      match r with
      | c1 :: c2 :: r2 =>
        if within (if n =? 0xE0 then 0xA0 else 0x80) (if n =? 0xED then 0x9F else 0xBF) c1 && within 0x80 0xBF c2
        then (if (n =? 0xE2) && (val c1 =? 0x80) && within 0xA8 0xA9 c2
              then bslash :: B "u202" ++ [hex_digit (val c2 - 0xA0)] else [c; c1; c2]) ++ jw_chars r2
        else jw_bad ++ jw_chars r
      | _ => jw_bad ++ jw_chars r
      end
    else if within 0xF0 0xF4 c then
      match r with
      | c1 :: c2 :: c3 :: r3 =>
        if within (if n =? 0xF0 then 0x90 else 0x80) (if n =? 0xF4 then 0x8F else 0xBF) c1 &&
           within 0x80 0xBF c2 && within 0x80 0xBF c3
        then c :: c1 :: c2 :: c3 :: jw_chars r3
        else jw_bad ++ jw_chars r
      | _ => jw_bad ++ jw_chars r
      end
    else jw_bad ++ jw_chars r
  end.
Definition jw_string (s : str) : str := quote :: jw_chars s ++ [quote].

(** RawByte('['), items with commas between, RawByte(']') *)
Definition jw_array (items : list str) : str := "["%char :: comma_sep items ++ ["]"%char].
Definition jw_strings (l : list str) : str := jw_array (map jw_string l).

(** event_easyjson.go:96-156 *)
Definition jw_opt (key s : str) : str := match s with [] => [] | _ => key ++ jw_string s end.
Definition encode_event (e : event) : str :=
  B "{" ++ B """kind"":" ++ dec_Z (ev_kind e) ++
  jw_opt (B ",""id"":") (ev_id e) ++
  jw_opt (B ",""pubkey"":") (ev_pubkey e) ++
  B ",""created_at"":" ++ dec_Z (ev_created_at e) ++
  B ",""tags"":" ++ jw_array (map jw_strings (ev_tags e)) ++
  B ",""content"":" ++ jw_string (ev_content e) ++
  jw_opt (B ",""sig"":") (ev_sig e) ++ B "}".

(** filter_easyjson.go:167-284: the fields that are written, each as key text and value text; the [first]
    variable puts a comma before each field but the first. The tag names are written raw.
    The order of f_tags stands for the iteration order of the Go map. *)
Definition jw_fields (f : nfilter) : list str :=
  (match f_ids f with Some (x :: l) => [B """ids"":" ++ jw_strings (x :: l)] | _ => [] end) ++
  (match f_kinds f with Some (x :: l) => [B """kinds"":" ++ jw_array (map dec_Z (x :: l))] | _ => [] end) ++
  (match f_authors f with Some (x :: l) => [B """authors"":" ++ jw_strings (x :: l)] | _ => [] end) ++
  (match f_since f with Some t => [B """since"":" ++ dec_Z t] | None => [] end) ++
  (match f_until f with Some t => [B """until"":" ++ dec_Z t] | None => [] end) ++
  (if negb (Z.eqb (f_limit f) 0) || f_limit_zero f then [B """limit"":" ++ dec_Z (f_limit f)] else []) ++
  (match f_search f with [] => [] | s => [B """search"":" ++ jw_string s] end) ++
  map (fun p => B """#" ++ fst p ++ B """:" ++ jw_strings (match snd p with Some l => l | None => [] end)) (f_tags f).
Definition encode_filter (f : nfilter) : str := B "{" ++ comma_sep (jw_fields f) ++ B "}".

(** ** Reader: jlexer.Lexer *)
Inductive tok := TUndef | TDelim (c : ascii) | TStr (raw : str) | TNum (t : str) | TNull | TBool (b : bool).
Record lexer := mkLx {
  lx_rest : str;             (* Data[pos:] *)
  lx_sep : option ascii;     (* wantSep *)
  lx_first : bool;           (* firstElement *)
  lx_tok : tok;              (* current token *)
  lx_err : bool              (* fatalError != nil *) }.

Definition lx_fail (l : lexer) : lexer := mkLx (lx_rest l) (lx_sep l) (lx_first l) (lx_tok l) true.
Definition consume (l : lexer) : lexer := mkLx (lx_rest l) (lx_sep l) (lx_first l) TUndef (lx_err l).
Definition want (c : ascii) (l : lexer) : lexer := mkLx (lx_rest l) (Some c) false (lx_tok l) (lx_err l).

(** findStringLen: the text up to the first quote that is not escaped *)
Fixpoint raw_string (s : str) : option (str * str) :=
  match s with
  | [] => None
  | c :: r =>
    if ceqb c quote then Some ([], r)
    else if ceqb c bslash then
      match r with
      | [] => None
      | d :: r1 => match raw_string r1 with Some (a, b) => Some (c :: d :: a, b) | None => None end
      end
    else match raw_string r with Some (a, b) => Some (c :: a, b) | None => None end
  end.

Definition prepend (p : str) (o : option str) : option str := match o with Some s => Some (p ++ s) | None => None end.

(** unescapeStringToken and decodeEscape *)
Fixpoint junescape (s : str) : option str :=
  match s with
  | [] => Some []
  | c :: r =>
    if ceqb c bslash then
      match r with
      | [] => None
      | e :: r1 =>
        if ceqb e "u"%char then
          match r1 with
          | h1 :: h2 :: h3 :: h4 :: r2 =>
            match hex4 h1 h2 h3 h4 with
            | None => None
            | Some cp =>
              if is_surrogate cp then
                match r2 with
                | b' :: u' :: l1 :: l2 :: l3 :: l4 :: r3 =>
                  match (if ceqb b' bslash && ceqb u' "u"%char then hex4 l1 l2 l3 l4 else None) with
                  | Some lo =>
                    if is_high cp && is_low lo
                    then prepend (utf8 (0x10000 + (cp - 0xD800) * 1024 + (lo - 0xDC00))) (junescape r3)
                    else prepend (utf8 0xFFFD) (junescape r2)
                  | None => prepend (utf8 0xFFFD) (junescape r2)
                  end
                | _ => prepend (utf8 0xFFFD) (junescape r2)
                end
              else prepend (utf8 cp) (junescape r2)
            end
          | _ => None
          end
        else match simple_escape e with
             | Some v => prepend [v] (junescape r1)
             | None => None
             end
      end
    else prepend [c] (junescape r)
  end.

Definition is_token_end (c : ascii) : bool :=
  is_ws c || ceqb c "["%char || ceqb c "]"%char || ceqb c "{"%char || ceqb c "}"%char || ceqb c ","%char || ceqb c ":"%char.

(** fetchNumber: (has dot, has e, after e) *)
Fixpoint raw_number (s : str) (dot e after : bool) : option (str * str) :=
  match s with
  | [] => Some ([], [])
  | c :: r =>
    let go d e a := match raw_number r d e a with Some (x, y) => Some (c :: x, y) | None => None end in
    if is_digit c then go dot e false
    else if ceqb c "."%char && negb dot then go true e after
    else if (ceqb c "e"%char || ceqb c "E"%char) && negb e then go true true true
    else if (ceqb c "+"%char || ceqb c "-"%char) && after then go dot e false
    else if is_token_end c then Some ([], s) else None
  end.

Definition literal (s lit : str) : option str :=
  if has_prefix s lit then
    match skipn (length lit) s with
    | [] => Some []
    | c :: r => if is_token_end c then Some (c :: r) else None
    end
  else None.

(** FetchToken *)
Fixpoint fetch (s : str) (sep : option ascii) (first : bool) : lexer :=
  match s with
  | [] => mkLx [] sep first TUndef true
  | c :: r =>
    let nosep := match sep with None => true | Some _ => false end in
    if ceqb c ":"%char || ceqb c ","%char then
      match sep with
      | Some d => if ceqb d c then fetch r None first else mkLx s sep first TUndef true
      | None => mkLx s sep first TUndef true
      end
    else if is_ws c then fetch r sep first
    else if ceqb c quote then
      match raw_string r with
      | Some (raw, r') => mkLx r' sep first (TStr raw) (negb nosep)
      | None => mkLx s sep first TUndef true
      end
    else if ceqb c "{"%char || ceqb c "["%char then mkLx r sep true (TDelim c) (negb nosep)
    else if ceqb c "}"%char || ceqb c "]"%char then
      mkLx r None first (TDelim c) (negb first && match sep with Some d => negb (ceqb d ","%char) | None => true end)
    else if is_digit c || ceqb c "-"%char then
      match raw_number r false false false with
      | Some (t, r') => mkLx r' sep first (TNum (c :: t)) (negb nosep)
      | None => mkLx s sep first TUndef true
      end
    else match literal s (B "null"), literal s (B "true"), literal s (B "false") with
         | Some r', _, _ => mkLx r' sep first TNull (negb nosep)
         | _, Some r', _ => mkLx r' sep first (TBool true) (negb nosep)
         | _, _, Some r' => mkLx r' sep first (TBool false) (negb nosep)
         | _, _, _ => mkLx s sep first TUndef true
         end
  end.

(** "if r.token.kind == tokenUndef && r.Ok() { r.FetchToken() }" *)
Definition scan (l : lexer) : lexer :=
  match lx_tok l with
  | TUndef => if lx_err l then l else fetch (lx_rest l) (lx_sep l) (lx_first l)
  | _ => l
  end.

Definition tok_delim (t : tok) (c : ascii) : bool := match t with TDelim d => ceqb d c | _ => false end.
Definition delim (c : ascii) (l : lexer) : lexer :=
  let l := scan l in
  if negb (lx_err l) && tok_delim (lx_tok l) c then consume l else lx_fail (consume l).
Definition is_delim (c : ascii) (l : lexer) : bool * lexer :=
  let l := scan l in (lx_err l || tok_delim (lx_tok l) c, l).
Definition is_null (l : lexer) : bool * lexer :=
  let l := scan l in (match lx_tok l with TNull => true | _ => false end, l).
Definition skip (l : lexer) : lexer := consume (scan l).
(** String, and UnsafeFieldName(false) *)
Definition lstring (l : lexer) : str * lexer :=
  let l := scan l in
  if lx_err l then ([], l) else
  match lx_tok l with
  | TStr raw => match junescape raw with Some s => (s, consume l) | None => ([], lx_fail l) end
  | _ => ([], lx_fail l)
  end.
(** UnsafeFieldName(true): the raw text, escapes and all *)
Definition raw_field_name (l : lexer) : str * lexer :=
  let l := scan l in
  if lx_err l then ([], l) else
  match lx_tok l with TStr raw => (raw, consume l) | _ => ([], lx_fail l) end.
(** Int64 and Int (64 bits) *)
Definition lint (l : lexer) : Z * lexer :=
  let l := scan l in
  if lx_err l then (0%Z, l) else
  match lx_tok l with
  | TNum t => match parse_int t with Some z => (z, consume l) | None => (0%Z, lx_fail (consume l)) end
  | _ => (0%Z, lx_fail l)
  end.

(** SkipRecursive. Simplification: the validity check of the skipped text is left out. *)
Fixpoint skip_rec (s : str) (start end_ : ascii) (level : nat) (inq esc : bool) : option str :=
  match s with
  | [] => None
  | c :: r =>
    if ceqb c start && negb inq then skip_rec r start end_ (S level) inq false
    else if ceqb c end_ && negb inq then
      match level with S (S n) => skip_rec r start end_ (S n) inq false | _ => Some r end
    else if ceqb c bslash && inq then skip_rec r start end_ level inq (negb esc)
    else if ceqb c quote && inq then skip_rec r start end_ level esc false
    else if ceqb c quote then skip_rec r start end_ level true false
    else skip_rec r start end_ level inq false
  end.
Definition skip_recursive (l : lexer) : lexer :=
  let l := scan l in
  match lx_tok l with
  | TDelim c =>
    let go e := match skip_rec (lx_rest l) c e 1 false false with
                | Some r => mkLx r (lx_sep l) (lx_first l) TUndef (lx_err l)
                | None => mkLx [] (lx_sep l) (lx_first l) TUndef true
                end in
    if ceqb c "{"%char then go "}"%char else if ceqb c "["%char then go "]"%char else consume l
  | _ => consume l
  end.

(** "for !in.IsDelim(']') { v := item(); append; in.WantComma() }; in.Delim(']')" *)
Fixpoint items {A} (fuel : nat) (item : lexer -> A * lexer) (l : lexer) (acc : list A) : list A * lexer :=
  match fuel with
  | O => (acc, lx_fail l)
  | S f =>
    let '(stop, l) := is_delim "]"%char l in
    if stop then (acc, delim "]"%char l)
    else let '(v, l) := item l in items f item (want ","%char l) (acc ++ [v])
  end.
(** in.Delim('[') and the loop *)
Definition array {A} (fuel : nat) (item : lexer -> A * lexer) (l : lexer) : list A * lexer :=
  items fuel item (delim "["%char l) [].
(** event_easyjson.go:56-74: one tag; null gives a nil tag *)
Definition ltag (fuel : nat) (l : lexer) : tag * lexer :=
  let '(n, l) := is_null l in
  if n then ([], skip l) else array fuel lstring l.

(** event_easyjson.go:40-86, the switch. There is no default case: the value of an unknown field
    stays the current token. *)
Definition event_field (fuel : nat) (key : str) (l : lexer) (e : event) : event * lexer :=
  if seqb key (B "id") then
    let '(s, l) := lstring l in (mkEvent s (ev_pubkey e) (ev_created_at e) (ev_kind e) (ev_tags e) (ev_content e) (ev_sig e), l)
  else if seqb key (B "pubkey") then
    let '(s, l) := lstring l in (mkEvent (ev_id e) s (ev_created_at e) (ev_kind e) (ev_tags e) (ev_content e) (ev_sig e), l)
  else if seqb key (B "created_at") then
    let '(z, l) := lint l in (mkEvent (ev_id e) (ev_pubkey e) z (ev_kind e) (ev_tags e) (ev_content e) (ev_sig e), l)
  else if seqb key (B "kind") then
    let '(z, l) := lint l in (mkEvent (ev_id e) (ev_pubkey e) (ev_created_at e) z (ev_tags e) (ev_content e) (ev_sig e), l)
  else if seqb key (B "tags") then
    let '(ts, l) := array fuel (ltag fuel) l in (mkEvent (ev_id e) (ev_pubkey e) (ev_created_at e) (ev_kind e) ts (ev_content e) (ev_sig e), l)
  else if seqb key (B "content") then
    let '(s, l) := lstring l in (mkEvent (ev_id e) (ev_pubkey e) (ev_created_at e) (ev_kind e) (ev_tags e) s (ev_sig e), l)
  else if seqb key (B "sig") then
    let '(s, l) := lstring l in (mkEvent (ev_id e) (ev_pubkey e) (ev_created_at e) (ev_kind e) (ev_tags e) (ev_content e) s, l)
  else (e, l).

(** The object loop shared by both decoders: event_easyjson.go:25-92, filter_easyjson.go:26-163. *)
Fixpoint members {A} (fuel : nat) (name : lexer -> str * lexer) (field : str -> lexer -> A -> A * lexer) (l : lexer) (a : A) : A * lexer :=
  match fuel with
  | O => (a, lx_fail l)
  | S f =>
    let '(stop, l) := is_delim "}"%char l in
    if stop then (a, delim "}"%char l)
    else
      let '(key, l) := name l in
      let '(n, l) := is_null (want ":"%char l) in
      if n then members f name field (want ","%char (skip l)) a
      else let '(a, l) := field key l a in members f name field (want ","%char l) a
  end.

(** isTopLevel: in.Consumed() *)
Definition finish {A} (r : A * lexer) : outcome A :=
  let '(a, l) := r in
  if lx_err l then Err else match skip_ws (lx_rest l) with [] => Ok a | _ => Err end.

Definition lx_init (data : str) : lexer := mkLx data None false TUndef false.

(** A whole top-level object: null leaves the value as it was (event_easyjson.go:17-24). After Skip nothing more is read. *)
Definition decode_object {A} (data : str) (name : lexer -> str * lexer) (field : str -> lexer -> A -> A * lexer) (a : A) : outcome A :=
  let '(n, l) := is_null (lx_init data) in
  if n then finish (a, skip l)
  else finish (members (S (length data)) name field (delim "{"%char l) a).

Definition zero_event : event := mkEvent [] [] 0 0 [] [] [].
(** event_easyjson.go:16-94 through UnmarshalJSON (172-176), into the event [e0] *)
Definition decode_event_into (e0 : event) (data : str) : outcome event :=
  decode_object data raw_field_name (event_field (S (length data))) e0.
Definition decode_event := decode_event_into zero_event.

(** m[k] = v *)
Fixpoint map_set {V} (k : str) (v : V) (m : list (str * V)) : list (str * V) :=
  match m with
  | [] => [(k, v)]
  | (k', v') :: m' => if seqb k k' then (k, v) :: m' else (k', v') :: map_set k v m'
  end.

(** filter_easyjson.go:37-161 *)
Definition filter_field (fuel : nat) (key : str) (l : lexer) (f : nfilter) : nfilter * lexer :=
  if seqb key (B "ids") then
    let '(v, l) := array fuel lstring l in (mkFilter (Some v) (f_kinds f) (f_authors f) (f_tags f) (f_since f) (f_until f) (f_limit f) (f_search f) (f_limit_zero f), l)
  else if seqb key (B "kinds") then
    let '(v, l) := array fuel lint l in (mkFilter (f_ids f) (Some v) (f_authors f) (f_tags f) (f_since f) (f_until f) (f_limit f) (f_search f) (f_limit_zero f), l)
  else if seqb key (B "authors") then
    let '(v, l) := array fuel lstring l in (mkFilter (f_ids f) (f_kinds f) (Some v) (f_tags f) (f_since f) (f_until f) (f_limit f) (f_search f) (f_limit_zero f), l)
  else if seqb key (B "since") then
    let '(z, l) := lint l in (mkFilter (f_ids f) (f_kinds f) (f_authors f) (f_tags f) (Some z) (f_until f) (f_limit f) (f_search f) (f_limit_zero f), l)
  else if seqb key (B "until") then
    let '(z, l) := lint l in (mkFilter (f_ids f) (f_kinds f) (f_authors f) (f_tags f) (f_since f) (Some z) (f_limit f) (f_search f) (f_limit_zero f), l)
  else if seqb key (B "limit") then
    let '(z, l) := lint l in (mkFilter (f_ids f) (f_kinds f) (f_authors f) (f_tags f) (f_since f) (f_until f) z (f_search f) (Z.eqb z 0 || f_limit_zero f), l)
  else if seqb key (B "search") then
    let '(s, l) := lstring l in (mkFilter (f_ids f) (f_kinds f) (f_authors f) (f_tags f) (f_since f) (f_until f) (f_limit f) s (f_limit_zero f), l)
  else match key with
       | c :: (_ :: _) as name =>
         if ceqb c "#"%char then
           let '(v, l) := array fuel lstring l in
           (mkFilter (f_ids f) (f_kinds f) (f_authors f) (map_set name (Some v) (f_tags f)) (f_since f) (f_until f) (f_limit f) (f_search f) (f_limit_zero f), l)
         else (f, skip_recursive l)
       | _ => (f, skip_recursive l)
       end.

Definition zero_filter : nfilter := mkFilter None None None [] None None 0 [] false.
(** filter_easyjson.go:25: out.Tags = make(TagMap), when the text is not null *)
Definition no_tags (f : nfilter) : nfilter :=
  mkFilter (f_ids f) (f_kinds f) (f_authors f) [] (f_since f) (f_until f) (f_limit f) (f_search f) (f_limit_zero f).
(** filter_easyjson.go:16-165 through UnmarshalJSON, into the filter [f0] *)
Definition decode_filter_into (f0 : nfilter) (data : str) : outcome nfilter :=
  let '(n, _) := is_null (lx_init data) in
  decode_object data lstring (filter_field (S (length data))) (if n then f0 else no_tags f0).
Definition decode_filter := decode_filter_into zero_filter.

Definition demo_ev : event :=
  mkEvent (B "ab") (B "cd") (-5) 1 [[B "e"; B "x""y"]; []; [B "t"]] (B "hi" ++ [byte_of 10; byte_of 1; byte_of 0xC3; byte_of 0xA9; byte_of 0xE2; byte_of 0x80; byte_of 0xA8]) (B "ff").
Example encode_demo : encode_event demo_ev =
  B "{""kind"":1,""id"":""ab"",""pubkey"":""cd"",""created_at"":-5,""tags"":[[""e"",""x\""y""],[],[""t""]],""content"":""hi\n\u0001" ++
  [byte_of 0xC3; byte_of 0xA9] ++ bslash :: B "u2028"",""sig"":""ff""}".
Proof. vm_compute. reflexivity. Qed.
Example decode_demo : decode_event (encode_event demo_ev) = Ok demo_ev.
Proof. vm_compute. reflexivity. Qed.
Example decode_demo2 : decode_event (B " { ""foo"":""id"":""abc"" } ") = Ok (mkEvent (B "abc") [] 0 0 [] [] []).
Proof. vm_compute. reflexivity. Qed.
Example decode_demo3 : decode_event (B "{""id"":""abc"",""extra"":1}") = Err.
Proof. vm_compute. reflexivity. Qed.
Definition demo_f : nfilter := mkFilter None (Some [1; -2]%Z) None [(B "e", Some [B "q"; B "z"]); (B "p", Some [])] (Some 5%Z) None 0 (B "s") true.
Example decode_demo_f : decode_filter (encode_filter demo_f) = Ok demo_f.
Proof. vm_compute. reflexivity. Qed.
