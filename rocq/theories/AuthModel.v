(** Normalisation of URLs and messages, /repo/normalize.go; authentication events, /repo/nip42. *)
From Verif Require Import Base EventModel TagsModel CryptoModel.
Import ListNotations.

(** ** normalize.go:112-119 *)
Definition colon : ascii := ":"%char.
Definition space : ascii := " "%char.
(** strings.Index(s, ": "): what is before it, none when absent *)
Fixpoint before_sep (s : str) : option str :=
  match s with
  | [] => None
  | c :: r => if ceqb c colon && match r with d :: _ => ceqb d space | [] => false end then Some [] else match before_sep r with Some a => Some (c :: a) | None => None end
  end.
Definition normalize_ok (reason prefix : str) : str :=
  match before_sep reason with
  | Some a => if existsb (fun c => ceqb c space) a then prefix ++ B ": " ++ reason else reason
  | None => prefix ++ B ": " ++ reason
  end.

(** ** normalize.go:11-64. fasturl.ParseURL (third party), strings.TrimSpace and strings.ToLower are given. *)
Record furl := mkUrl { fu_protocol : str; fu_host : str; fu_port : str; fu_path : str; fu_query : str }.
(** strings.TrimRight(s, "/") *)
Fixpoint trim_slashes (s : str) : str :=
  match s with [] => [] | c :: r => match trim_slashes r with [] => if ceqb c "/"%char then [] else [c] | t => c :: t end end.
Section Url.
Variable parse : str -> option furl.
Variable trim_space to_lower : str -> str.
(** normalize.go:24-27 *)
Definition swap_port (p : furl) : furl :=
  match fu_port p with
  | [] => if Nat.ltb 5 (length (fu_protocol p)) then mkUrl [] (fu_protocol p) (fu_host p) (fu_path p) (fu_query p) else p
  | _ => p
  end.
(** normalize.go:29-39 *)
Definition relay_protocol (p : furl) : str :=
  match fu_protocol p with
  | [] => if seqb (fu_host p) (B "localhost") || seqb (fu_host p) (B "127.0.0.1") then B "ws" else B "wss"
  | pr => if seqb pr (B "https") then B "wss" else if seqb pr (B "http") then B "ws" else pr
  end.
(** normalize.go:41-42 *)
Definition settle (p0 : furl) : furl := let p := swap_port p0 in mkUrl (relay_protocol p) (to_lower (fu_host p)) (fu_port p) (trim_slashes (fu_path p)) (fu_query p).
(** normalize.go:44-63 *)
Definition render (p : furl) : str :=
  fu_protocol p ++ B "://" ++ fu_host p ++ (match fu_port p with [] => [] | x => colon :: x end) ++ fu_path p ++ (match fu_query p with [] => [] | x => "?"%char :: x end).
Definition normalize_url (u : str) : str :=
  match u with [] => [] | _ => match parse (trim_space u) with None => [] | Some p => render (settle p) end end.
End Url.

(** ** nip42/nip42.go. url.Parse (scheme, host and path of the result) and strings.ToLower are given; the signature check is that of
    EventModel.v; [now]: the clock, in nanoseconds since 1970. *)
Section Auth.
Local Open Scope Z_scope.
Variable c : prims.
Variable url_parse : str -> option (str * str * str).
Variable to_lower : str -> str.
(** nip42.go:13-24 *)
Definition unsigned_auth (challenge pubkey relay : str) (now_s : Z) : event :=
  mkEvent [] pubkey now_s 22242 [[B "relay"; relay]; [B "challenge"; challenge]] [] [].
(** nip42.go:27-33: strings.TrimSuffix(input, "/") takes one slash off *)
Definition trim_suffix (s : str) : str := match rev s with x :: r => if ceqb x "/"%char then rev r else s | [] => s end.
Definition parse_relay (s : str) : option (str * str * str) := url_parse (to_lower (trim_suffix s)).
(** Timestamp.Time, time.Unix: seconds since the year 1 in 64 bits *)
Definition year1 : Z := 62135596800.
Definition wrap64 (z : Z) : Z := (z + 9223372036854775808) mod 18446744073709551616 - 9223372036854775808.
Definition event_ns (created : Z) : Z := wrap64 (created + year1) * 1000000000.
Definition clock_ns (now : Z) : Z := now + year1 * 1000000000.
Definition ten_minutes : Z := 600000000000.
(** nip42.go:37-81 *)
Definition validate_auth (e : event) (challenge relay : str) (now : Z) : outcome (option str) :=
  if negb (ev_kind e =? 22242) then Ok None else
  match find_with_value (ev_tags e) (B "challenge") challenge with
  | None => Ok None
  | Some _ =>
    match parse_relay relay with
    | None => Ok None
    | Some (s1, h1, p1) =>
      match find_tag (ev_tags e) (B "relay") with
      | None => Ok None
      | Some t =>
        match nth_error t 1 with
        | None => Panic
        | Some r =>
          match parse_relay r with
          | None => Ok None
          | Some (s2, h2, p2) =>
            if negb (seqb s1 s2) || negb (seqb h1 h2) || negb (seqb p1 p2) then Ok None else
            if (clock_ns now + ten_minutes <? event_ns (ev_created_at e)) || (event_ns (ev_created_at e) <? clock_ns now - ten_minutes) then Ok None else
            match sig_ok c e with
            | Ok true => Ok (Some (ev_pubkey e))
            | Panic => Panic
            | _ => Ok None
            end
          end
        end
      end
    end
  end.
End Auth.
