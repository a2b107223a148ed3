(** Content parsed into blocks: /repo/nip27/blocks.go. *)
From Verif Require Import Base EventModel Nip19Model JLexModel.
Import ListNotations.
Local Open Scope nat_scope.

Definition newline : ascii := byte_of 10.
(** the regexp class \w *)
Definition is_word (c : ascii) : bool := within 48 57 c || within 65 90 c || within 97 122 c || ceqb c "_"%char.
(** the width of the first rune, utf8.DecodeRuneInString; what is not UTF-8 counts one byte at a time *)
Definition rune_len (s : str) : nat :=
  match s with
  | c :: c1 :: r =>
    if within 0xC2 0xDF c && within 0x80 0xBF c1 then 2
    else match r with
         | c2 :: r2 =>
           if within 0xE0 0xEF c && within (if (val c =? 0xE0)%N then 0xA0 else 0x80) (if (val c =? 0xED)%N then 0x9F else 0xBF) c1 && within 0x80 0xBF c2 then 3
           else match r2 with
                | c3 :: _ => if within 0xF0 0xF4 c && within (if (val c =? 0xF0)%N then 0x90 else 0x80) (if (val c =? 0xF4)%N then 0x8F else 0xBF) c1 && within 0x80 0xBF c2 && within 0x80 0xBF c3 then 4 else 1
                | [] => 1
                end
         | [] => 1
         end
  | _ => 1
  end.
(** nip27/blocks.go:20, 39-43: where (?m)\W first matches; the end when it does not. A rune that is no word character starts at the first such byte. *)
Fixpoint code_end (s : str) : nat := match s with [] => 0 | c :: r => if is_word c then S (code_end r) else 0 end.
(** nip27/blocks.go:21: where (?m)\W |\W$|$|,|  first matches. The regexp moves by runes; $ is the end or before a newline. [fuel]: the length. *)
Definition stops (s : str) : bool := match s with [] => true | d :: _ => ceqb d " "%char || ceqb d newline end.
Fixpoint url_end (fuel : nat) (s : str) : nat :=
  match s with
  | [] => 0
  | c :: _ =>
    if ceqb c newline || ceqb c ","%char || ceqb c " "%char then 0
    else if negb (is_word c) && stops (skipn (rune_len s) s) then 0
    else match fuel with O => 0 | S f => rune_len s + url_end f (skipn (rune_len s) s) end
  end.
(** strings.IndexRune(s, ':') *)
Fixpoint index_colon (s : str) : option nat := match s with [] => None | c :: r => if ceqb c ":"%char then Some 0 else match index_colon r with Some n => Some (S n) | None => None end end.

(** nip27/blocks.go:13-17; nip73.ExternalPointer *)
Inductive bpointer := BPtr (p : pointer) | BUrl (thing : str).
Record block := mkBlock { b_text : str; b_start : nat; b_pointer : option bpointer }.

(** content[i:j] *)
Definition slice (s : str) (i j : nat) : outcome str := if Nat.leb i j && Nat.leb j (length s) then Ok (firstn (j - i) (skipn i s)) else Panic.
(** u >= len(w) && content[u-len(w):u] == w *)
Definition ends_at (s : str) (u : nat) (w : str) : bool := Nat.leb (length w) u && seqb (firstn (length w) (skipn (u - length w) s)) w.

Section Parse.
Variable url_host : str -> option str.   (* url.Parse, its Host *)
Definition dotted (h : option str) : bool := match h with Some h => existsb (fun c => ceqb c "."%char) h | None => false end.
(** nip27/blocks.go:45-62: what a code stands for; KHex only comes with npub, nsec and note *)
Definition reference (r : str * code) : option bpointer :=
  match r with
  | (prefix, KHex h) => if seqb prefix (B "npub") then Some (BPtr (PProfile (mkProfile h None))) else None
  | (_, KPtr p) => Some (BPtr p)
  end.
(** nip27/blocks.go:64-75 and the same lines of the other cases: the text before, then the block itself *)
Definition emit (s : str) (prev from to : nat) (p : bpointer) (rest : outcome (list block)) : outcome (list block) :=
  obind (if Nat.eqb prev from then Ok [] else obind (slice s prev from) (fun t => Ok [mkBlock t prev None])) (fun before =>
  obind (slice s from to) (fun t =>
  obind rest (fun bs => Ok (before ++ mkBlock t from (Some p) :: bs)))).
(** nip27/blocks.go:23-154. The blocks in the order they are yielded; a consumer that stops early sees a prefix. [fuel]: index grows each time. *)
Fixpoint parse_loop (fuel : nat) (s : str) (index prev : nat) : outcome (list block) :=
  let finish := if Nat.eqb prev (length s) then Ok [] else obind (slice s prev (length s)) (fun t => Ok [mkBlock t prev None]) in
  match fuel with
  | O => Err
  | S f =>
    if Nat.ltb index (length s) then
      match index_colon (skipn index s) with
      | None => finish
      | Some pu =>
        let u := pu + index in
        let url prefix_len :=   (* 77-108, 109-140 *)
          let to := u + 4 + url_end (length s) (skipn (u + 4) s) in
          obind (slice s (u - prefix_len) to) (fun t =>
          if dotted (url_host t) then emit s prev (u - prefix_len) to (BUrl t) (parse_loop f s to to)
          else parse_loop f s (to + 1) prev) in
        if ends_at s u (B "nostr") && Nat.ltb (u + 60) (length s) then
          let to := u + 60 + code_end (skipn (u + 60) s) in
          obind (slice s (u + 1) to) (fun c =>
          match nip19_decode c with
          | Panic => Panic
          | Err => parse_loop f s (u + 1) prev
          | Ok r =>
            match reference r with
            | None => parse_loop f s (to + 1) prev
            | Some p => emit s prev (u - 5) to p (parse_loop f s to to)
            end
          end)
        else if (ends_at s u (B "https") || ends_at s u (B "http")) && Nat.ltb (u + 4) (length s) then
          url (if ceqb (nth (u - 1) s " "%char) "s"%char then 5 else 4)
        else if (ends_at s u (B "wss") || ends_at s u (B "ws")) && Nat.ltb (u + 4) (length s) then
          url (if ceqb (nth (u - 2) s " "%char) "s"%char then 3 else 2)
        else parse_loop f s (u + 1) prev
      end
    else finish
  end.
Definition parse_blocks (s : str) : outcome (list block) := parse_loop (S (length s)) s 0 0.
End Parse.

Definition demo_host (s : str) : option str :=
  match index_colon s with None => None | Some n => match skipn (S n) s with a :: b :: r => if ceqb a "/"%char && ceqb b "/"%char then Some (firstn (code_end (map (fun c => if ceqb c "."%char then "x"%char else c) r)) r) else Some [] | _ => Some [] end end.
(** The test of nip27/blocks_test.go, apart from the text between *)
Example blocks_demo : parse_blocks demo_host (B ":wss://oa.ao; this was a relay and https://videos.com/video.mp4! https://kjxkxk nostr:nevent1qqsvc6ulagpn7kwrcwdqgp797xl7usumqa6s3kgcelwq6m75x8fe8ychxp5v4!") =
  Ok [mkBlock (B ":") 0 None; mkBlock (B "wss://oa.ao") 1 (Some (BUrl (B "wss://oa.ao"))); mkBlock (B "; this was a relay and ") 12 None;
      mkBlock (B "https://videos.com/video.mp4") 35 (Some (BUrl (B "https://videos.com/video.mp4"))); mkBlock (B "! https://kjxkxk ") 63 None;
      mkBlock (B "nostr:nevent1qqsvc6ulagpn7kwrcwdqgp797xl7usumqa6s3kgcelwq6m75x8fe8ychxp5v4") 80 (Some (BPtr (PEvent (mkEventPtr (B "cc6b9fea033f59c3c39a0407c5f1bfee439b077508d918cfdc0d6fd431d39393") None [] 0))));
      mkBlock (B "!") 154 None].
Proof. vm_compute. reflexivity. Qed.
