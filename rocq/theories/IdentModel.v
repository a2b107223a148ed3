(** Internet identifiers, /repo/nip05/nip05.go; relay information documents, /repo/nip11. *)
From Verif Require Import Base EventModel TagsModel Nip19Model AuthModel.
Import ListNotations.
Local Open Scope nat_scope.

(** ** Regular expressions, as Go's regexp matches a whole text. Bytes stand for runes; the classes used below hold only ASCII, so a rune of several bytes is in none of them. *)
Inductive re := Nul | Eps | Cls (p : ascii -> bool) | Cat (a b : re) | Alt (a b : re) | Star (a : re).
Definition Plus (a : re) : re := Cat a (Star a).
Definition Opt (a : re) : re := Alt a Eps.
Fixpoint nullable (r : re) : bool :=
  match r with Nul => false | Eps => true | Cls _ => false | Cat a b => nullable a && nullable b | Alt a b => nullable a || nullable b | Star _ => true end.
Fixpoint deriv (c : ascii) (r : re) : re :=
  match r with
  | Nul => Nul
  | Eps => Nul
  | Cls p => if p c then Eps else Nul
  | Cat a b => if nullable a then Alt (Cat (deriv c a) b) (deriv c b) else Cat (deriv c a) b
  | Alt a b => Alt (deriv c a) (deriv c b)
  | Star a => Cat (deriv c a) (Star a)
  end.
Fixpoint accept (r : re) (s : str) : bool := match s with [] => nullable r | c :: t => accept (deriv c r) t end.

(** nip05/nip05.go:14, ^(?:([\w.+-]+)@)?([\w_-]+(\.[\w_-]+)+)$ *)
Definition is_at (c : ascii) : bool := ceqb c "@"%char.
Definition is_dot (c : ascii) : bool := ceqb c "."%char.
Definition word (c : ascii) : bool :=
  let v := nat_of_ascii c in ((48 <=? v) && (v <=? 57)) || ((65 <=? v) && (v <=? 90)) || ((97 <=? v) && (v <=? 122)) || (v =? 95).
Definition name_class (c : ascii) : bool := word c || ceqb c "."%char || ceqb c "+"%char || ceqb c "-"%char.
Definition label_class (c : ascii) : bool := word c || ceqb c "_"%char || ceqb c "-"%char.
Definition re_name : re := Plus (Cls name_class).
Definition re_domain : re := Cat (Plus (Cls label_class)) (Plus (Cat (Cls is_dot) (Plus (Cls label_class)))).
Definition nip05_regex : re := Cat (Opt (Cat re_name (Cls is_at))) re_domain.
(** nip05.go:22-24 *)
Definition is_valid_identifier (s : str) : bool := accept nip05_regex s.
(** nip05.go:26-35. The two groups: what is before the "@" and what is after it, since no class holds "@"; without "@" the first group did not take part and is "". *)
Fixpoint cut_sep (c : ascii) (s : str) : option (str * str) :=
  match s with [] => None | x :: r => if ceqb x c then Some ([], r) else match cut_sep c r with Some (a, b) => Some (x :: a, b) | None => None end end.
Definition groups (s : str) : str * str := match cut_sep "@"%char s with Some p => p | None => ([], s) end.
Definition parse_identifier (s : str) : outcome (str * str) :=
  if accept nip05_regex s then let (n, d) := groups s in Ok ((match n with [] => B "_" | _ => n end), d) else Err.
(** nip05.go:92-98 *)
Definition normalize_identifier (s : str) : str := if has_prefix s (B "_@") then skipn 2 s else s.
(** nip05.go:71-72 *)
Definition well_known (domain name : str) : str := B "https://" ++ domain ++ B "/.well-known/nostr.json?name=" ++ name.
(** strings.Split(s, "@") *)
Fixpoint split_at (c : ascii) (s : str) : list str :=
  match s with [] => [[]] | x :: r => if ceqb x c then [] :: split_at c r else match split_at c r with h :: t => (x :: h) :: t | [] => [[x]] end end.
(** nip05.go:100-106 *)
Definition identifier_to_url (s : str) : str :=
  match split_at "@"%char s with
  | [a] => well_known a (B "_")
  | a :: b :: _ => well_known b a
  | [] => []
  end.
(** nip05.go:16-20; the third map is read by nip46 *)
Record well_known_response := mkWK { wk_names : str -> option str; wk_relays : str -> option (list str); wk_nip46 : str -> option (list str) }.
Section Query.
Variable parse_ok : str -> bool.
(** what the server at this URL answers, if the request and the JSON decoding succeed; redirects are not followed *)
Variable server : str -> option well_known_response.
(** nip05.go:64-90 *)
Definition fetch (s : str) : outcome (well_known_response * str) :=
  obind (parse_identifier s) (fun p => let (name, domain) := p in
  match server (well_known domain name) with Some r => Ok (r, name) | None => Err end).
(** nip05.go:37-56; a missing list of relays is nil *)
Definition query_identifier (s : str) : outcome profile_pointer :=
  obind (fetch s) (fun p => let (r, name) := p in
  match wk_names r name with
  | None => Err
  | Some pk => if valid_pubkey parse_ok pk then Ok (mkProfile pk (wk_relays r pk)) else Err
  end).
End Query.

(** ** nip11/types.go:30-43. A value of type any: an int as the program puts it there, a float64 as encoding/json and jsoniter read numbers, or another. *)
Inductive anyval := AInt (z : Z) | AFloat (z : Z) | AOther.
(** == on interfaces: same dynamic type and same value *)
Definition is_int (n : Z) (v : anyval) : bool := match v with AInt z => (z =? n)%Z | _ => false end.
Definition add_nip (l : list anyval) (n : Z) : list anyval := if existsb (is_int n) l then l else l ++ [AInt n].
Definition add_nips (l : list anyval) (ns : list Z) : list anyval := fold_left add_nip ns l.
(** Encoding a list of supported nips as JSON and reading it back *)
Definition reread (l : list anyval) : list anyval := map (fun v => match v with AInt z => AFloat z | x => x end) l.

(** ** nip11/fetch.go:18-55. [norm]: NormalizeURL (AuthModel.v); [request_ok]: whether http.NewRequestWithContext takes the URL; [answer]: the document the server gives, if it gives one. What is left of the document is its URL, which no JSON field sets. *)
Record info_doc := mkInfo { in_url : str; in_body : option str }.
Section Fetch.
Variable norm : str -> str.
Variable request_ok : str -> bool.
Variable answer : str -> option str.
(** fetch.go:38, "http"+u[2:] *)
Definition info_url (u : str) : str := B "http" ++ skipn 2 u.
(** the document and whether there was an error; a request that could not be made is nil and using its header panics *)
Definition fetch_info (u0 : str) : outcome (info_doc * bool) :=
  let u := norm u0 in
  if Nat.ltb (length u) 8 then Ok (mkInfo [] None, true) else
  if negb (request_ok (info_url u)) then Panic else
  match answer (info_url u) with
  | None => Ok (mkInfo u None, true)
  | Some b => Ok (mkInfo u (Some b), false)
  end.
End Fetch.
