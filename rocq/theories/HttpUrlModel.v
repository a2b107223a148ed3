(** NormalizeHTTPURL, /repo/normalize.go:64-105, over the parts of Go's net/url it uses (Parse, URL.String, ParseQuery, Values.Encode,
    QueryUnescape). Not modelled: a user name in the authority ("@") and IP literals in brackets ("["); such urls are outside [url_parse],
    which gives an error for them. strings.TrimSpace is modelled for the ASCII spaces. *)
From Verif Require Import Base IdentModel Bech32Model.
Import ListNotations.
Local Open Scope bool_scope.

Definition one_of (s : string) (c : ascii) : bool := existsb (ceqb c) (B s).
Definition is_letter (c : ascii) : bool := ((65 <=? val c) && (val c <=? 90) || (97 <=? val c) && (val c <=? 122))%N.
Definition is_alnum (c : ascii) : bool := is_letter c || is_digit c.
Definition is_space (c : ascii) : bool := ((9 <=? val c) && (val c <=? 13) || (val c =? 32))%N.
Definition is_ctl (c : ascii) : bool := ((val c <? 32) || (val c =? 127))%N.

(** ** net/url: escapes *)
Inductive emode := MPath | MHost | MQuery | MFragment.
Definition is_mode_host (m : emode) : bool := match m with MHost => true | _ => false end.
Definition is_mode_query (m : emode) : bool := match m with MQuery => true | _ => false end.
(** shouldEscape *)
Definition should_escape (m : emode) (c : ascii) : bool :=
  if is_alnum c then false
  else if is_mode_host m && one_of "!$&'()*+,;=:[]<>""" c then false
  else if one_of "-_.~" c then false
  else if one_of "$&+,/:;=?@" c then match m with MPath => ceqb c "?"%char | MFragment => false | _ => true end
  else match m with MFragment => negb (one_of "!()*" c) | _ => true end.
Definition upper_digit (n : N) : ascii := nth (N.to_nat n) (B "0123456789ABCDEF") "0"%char.
Definition percent (c : ascii) : str := ["%"%char; upper_digit (val c / 16); upper_digit (val c mod 16)].
(** escape *)
Definition escape_char (m : emode) (c : ascii) : str :=
  if should_escape m c then if is_mode_query m && ceqb c " "%char then B "+" else percent c else [c].
Definition url_escape (m : emode) (s : str) : str := flat_map (escape_char m) s.
(** unescape; None is its error *)
Fixpoint url_unescape (m : emode) (s : str) : option str :=
  match s with
  | [] => Some []
  | c :: r =>
      if ceqb c "%"%char then
        match r with
        | a :: b :: r' =>
            match hex_val a, hex_val b with
            | Some x, Some y =>
                if is_mode_host m && (x <? 8)%N && negb ((x =? 2) && (y =? 5))%N then None
                else option_map (cons (byte_of (16 * x + y))) (url_unescape m r')
            | _, _ => None
            end
        | _ => None
        end
      else if is_mode_host m && (val c <? 128)%N && should_escape MHost c then None
      else option_map (cons (if is_mode_query m && ceqb c "+"%char then " "%char else c)) (url_unescape m r)
  end.

(** ** net/url: Parse and String *)
Record hurl := mkHUrl {
  hu_scheme : str; hu_opaque : str; hu_host : str; hu_omit : bool;   (* OmitHost *)
  hu_path : str; hu_rawpath : str; hu_force : bool; hu_query : str; hu_frag : str; hu_rawfrag : str }.
(** strings.Cut *)
Definition cut_or (c : ascii) (s : str) : str * str := match cut_sep c s with Some p => p | None => (s, []) end.
(** getScheme; None is the error for a leading colon *)
Fixpoint scheme_loop (first : bool) (acc s : str) : option (option (str * str)) :=
  match s with
  | [] => Some None
  | c :: r =>
      if is_letter c then scheme_loop false (acc ++ [c]) r
      else if is_digit c || one_of "+-." c then if first then Some None else scheme_loop false (acc ++ [c]) r
      else if ceqb c ":"%char then if first then None else Some (Some (acc, r))
      else Some None
  end.
Definition get_scheme (s : str) : option (str * str) :=
  match scheme_loop true [] s with
  | None => None
  | Some None => Some ([], s)
  | Some (Some p) => Some p
  end.
(** parseHost without brackets: what follows the last colon must be digits; then the host is unescaped. None for "@" and "[". *)
Fixpoint after_last (c : ascii) (s : str) : option str :=
  match s with [] => None | x :: r => match after_last c r with Some p => Some p | None => if ceqb x c then Some r else None end end.
Definition parse_host (a : str) : option str :=
  if existsb (one_of "@[") a then None
  else if match after_last ":"%char a with Some port => forallb is_digit port | None => true end then url_unescape MHost a else None.
(** setPath and setFragment: the text and, if it is not its own escape, the raw text *)
Definition set_text (m : emode) (p : str) : option (str * str) :=
  match url_unescape m p with Some t => Some (t, if seqb (url_escape m t) p then [] else p) | None => None end.
Definition last_is (c : ascii) (s : str) : bool := match rev s with x :: _ => ceqb x c | [] => false end.
(** parse(rawURL, false) *)
Definition parse_before_fragment (s : str) : option hurl :=
  if existsb is_ctl s then None
  else if seqb s (B "*") then Some (mkHUrl [] [] [] false (B "*") [] false [] [] [])
  else match get_scheme s with
  | None => None
  | Some (sc, rest0) =>
      let sc := map lower sc in
      let force := last_is "?"%char rest0 && (length (filter (ceqb "?"%char) rest0) =? 1) in
      let '(rest, query) := if force then (removelast rest0, []) else cut_or "?"%char rest0 in
      let has_scheme := match sc with [] => false | _ => true end in
      if negb (has_prefix rest (B "/")) && has_scheme then Some (mkHUrl sc rest [] false [] [] force query [] [])
      else if negb (has_prefix rest (B "/")) && existsb (ceqb ":"%char) (fst (cut_or "/"%char rest)) then None
      else
        let auth := (has_scheme || negb (has_prefix rest (B "///"))) && has_prefix rest (B "//") in
        let '(authority, path) := if auth then match index (skipn 2 rest) (B "/") with
                                               | Some i => (firstn i (skipn 2 rest), skipn i (skipn 2 rest))
                                               | None => (skipn 2 rest, [])
                                               end else ([], rest) in
        match parse_host authority, set_text MPath path with
        | Some host, Some (p, raw) => Some (mkHUrl sc [] host (negb auth && has_scheme) p raw force query [] [])
        | _, _ => None
        end
  end.
Definition url_parse (s : str) : option hurl :=
  let '(u, frag) := cut_or "#"%char s in
  match parse_before_fragment u, set_text MFragment frag with
  | Some h, Some (f, raw) => Some (mkHUrl (hu_scheme h) (hu_opaque h) (hu_host h) (hu_omit h) (hu_path h) (hu_rawpath h) (hu_force h) (hu_query h) f raw)
  | _, _ => None
  end.
(** validEncoded, EscapedPath and EscapedFragment *)
Definition valid_encoded (m : emode) (s : str) : bool := forallb (fun c => one_of "!$&'()*+,;=:@[]%" c || negb (should_escape m c)) s.
Definition escaped_text (m : emode) (t raw : str) : str :=
  match raw with
  | [] => if seqb t (B "*") then t else url_escape m t
  | _ => if valid_encoded m raw && match url_unescape m raw with Some u => seqb u t | None => false end then raw
         else if seqb t (B "*") && match m with MPath => true | _ => false end then t else url_escape m t
  end.
Definition nonempty (s : str) : bool := match s with [] => false | _ => true end.
(** URL.String *)
Definition url_string (h : hurl) : str :=
  let head := (if nonempty (hu_scheme h) then hu_scheme h ++ B ":" else []) in
  let body :=
    if nonempty (hu_opaque h) then head ++ hu_opaque h
    else
      let auth := if (nonempty (hu_scheme h) || nonempty (hu_host h)) && negb (hu_omit h && negb (nonempty (hu_host h)))
                  then (if nonempty (hu_host h) || nonempty (hu_path h) then B "//" else []) ++ url_escape MHost (hu_host h) else [] in
      let path := escaped_text MPath (hu_path h) (hu_rawpath h) in
      let slash := if nonempty path && negb (has_prefix path (B "/")) && nonempty (hu_host h) then B "/" else [] in
      let start := head ++ auth ++ slash in
      let dot := if negb (nonempty start) && existsb (ceqb ":"%char) (fst (cut_or "/"%char path)) then B "./" else [] in
      start ++ dot ++ path in
  body ++ (if hu_force h || nonempty (hu_query h) then "?"%char :: hu_query h else [])
       ++ (if nonempty (hu_frag h) then "#"%char :: escaped_text MFragment (hu_frag h) (hu_rawfrag h) else []).

(** ** net/url: ParseQuery and Values.Encode *)
Definition parse_pair (s : str) : option (str * str) :=
  if existsb (ceqb ";"%char) s then None else
  match s with
  | [] => None
  | _ => let '(k, v) := cut_or "="%char s in
         match url_unescape MQuery k, url_unescape MQuery v with Some k', Some v' => Some (k', v') | _, _ => None end
  end.
Definition parse_query (q : str) : list (str * str) := flat_map (fun s => match parse_pair s with Some p => [p] | None => [] end) (split_at "&"%char q).
(** the map, in some order of its keys: m[key] = append(m[key], value) *)
Fixpoint add_value (k v : str) (m : list (str * list str)) : list (str * list str) :=
  match m with [] => [(k, [v])] | (k', vs) :: r => if seqb k k' then (k', vs ++ [v]) :: r else (k', vs) :: add_value k v r end.
Definition query_values (q : str) : list (str * list str) := fold_left (fun m p => add_value (fst p) (snd p) m) (parse_query q) [].
Fixpoint insert_key (p : str * list str) (m : list (str * list str)) : list (str * list str) :=
  match m with [] => [p] | q :: r => match scmp (fst p) (fst q) with Gt => q :: insert_key p r | _ => p :: m end end.
Definition sort_keys (m : list (str * list str)) : list (str * list str) := fold_right insert_key [] m.
Fixpoint join_amp (l : list str) : str := match l with [] => [] | [x] => x | x :: r => x ++ "&"%char :: join_amp r end.
Definition encode_values (m : list (str * list str)) : str :=
  join_amp (flat_map (fun p => map (fun v => url_escape MQuery (fst p) ++ "="%char :: url_escape MQuery v) (snd p)) (sort_keys m)).

(** ** NormalizeHTTPURL, normalize.go:65-105: the string and whether there was no error *)
Fixpoint trim_left (s : str) : str := match s with c :: r => if is_space c then trim_left r else s | [] => [] end.
Definition trim_space (s : str) : str := rev (trim_left (rev (trim_left s))).
Definition has_suffix (s x : str) : bool := has_prefix (rev s) (rev x).
Definition trim_suffix_of (x s : str) : str := if has_suffix s x then firstn (length s - length x) s else s.
Definition default_port (scheme : str) : str := if seqb scheme (B "http") then B ":80" else if seqb scheme (B "https") then B ":443" else B ":0".
Definition clean_query (q : str) : str := match url_unescape MQuery (encode_values (query_values q)) with Some r => r | None => [] end.
Definition finish (h : hurl) : str :=
  let h' := mkHUrl (hu_scheme h) (hu_opaque h) (trim_suffix_of (default_port (hu_scheme h)) (hu_host h)) (hu_omit h) (hu_path h) (hu_rawpath h) (hu_force h)
                   (clean_query (hu_query h)) (hu_frag h) (hu_rawfrag h) in
  trim_suffix_of (B "/") (url_string h').
Definition normalize_http (s0 : str) : str * bool :=
  let s1 := trim_space s0 in
  let s := if has_prefix s1 (B "http") then s1 else B "https://" ++ s1 in
  match url_parse s with
  | None => (s, false)
  | Some h =>
      match hu_scheme h with
      | [] => match url_parse (B "http://" ++ s) with None => (s, false) | Some h' => (finish h', true) end
      | _ => (finish h, true)
      end
  end.
