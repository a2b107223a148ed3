(** Addresses of relays: IsValidRelayURL, /repo/utils.go:11-20, and the deprecated readers of tags, /repo/tags.go:46-52, 98-109, 227-242. *)
From Verif Require Import Base EventModel TagsModel HttpUrlModel.
Import ListNotations.

(** utils.go:11-20, on net/url as modelled in HttpUrlModel (no user information, no brackets) *)
Definition is_valid_relay_url (u : str) : bool :=
  match url_parse u with
  | None => false
  | Some h => if negb (seqb (hu_scheme h) (B "wss")) && negb (seqb (hu_scheme h) (B "ws")) then false else true
  end.
(** tags.go:46-52. Given: NormalizeURL *)
Definition tag_relay (normalize : str -> str) (t : tag) : str :=
  match t with k :: _ :: r :: _ => if seqb k (B "e") || seqb k (B "p") then normalize r else [] | _ => [] end.
(** tags.go:99-109: the yielded pairs, as long as the caller wants more; [want] says so after each *)
Fixpoint tags_all (i : nat) (ts : list tag) (prefix : list str) (want : nat -> tag -> bool) : outcome (list (nat * tag)) :=
  match ts with
  | [] => Ok []
  | t :: r => match starts_with t prefix with
              | Ok true => if want i t then obind (tags_all (S i) r prefix want) (fun l => Ok ((i, t) :: l)) else Ok [(i, t)]
              | Ok false => tags_all (S i) r prefix want
              | Err => Err
              | Panic => Panic
              end
  end.
(** tags.go:228-242. [SOther]: neither bytes nor a string. Given: what json.Unmarshal leaves in the tags and whether it failed *)
Inductive src := SBytes (b : str) | SString (s : str) | SOther.
Definition tags_scan (unmarshal : str -> list tag -> list tag * bool) (old : list tag) (s : src) : list tag * bool :=
  match s with SBytes b => (fst (unmarshal b old), true) | SString b => (fst (unmarshal b old), true) | SOther => (old, false) end.
