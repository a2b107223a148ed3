(** Mentions in content (/repo/nip27/references.go), thread roots and parents (/repo/nip10/nip10.go, /repo/nip22/nip22.go, /repo/nip73/pointer.go). *)
From Verif Require Import Base EventModel TagsModel Nip19Model BlocksModel.
Import ListNotations.
Local Open Scope nat_scope.

(** nip27/references.go:18: the alternatives of \bnostr:((note|npub|naddr|nevent|nprofile)1\w+)\b, in its order *)
Definition mention_kinds : list str := [B "note"; B "npub"; B "naddr"; B "nevent"; B "nprofile"].
(** How long the match is that starts here, if one does. \w+ takes all it can, so the last \b holds. *)
Definition mention_here (s : str) : option nat :=
  if has_prefix s (B "nostr:") then
    let r := skipn 6 s in
    match find (fun k => has_prefix r (k ++ B "1")) mention_kinds with
    | None => None
    | Some k => match code_end (skipn (length k + 1) r) with O => None | S n => Some (6 + length k + 1 + S n) end
    end
  else None.
(** FindAllStringSubmatchIndex, the first two numbers of each: leftmost matches that do not overlap. [word]: the byte before is a word character; [skip]: bytes left of the match before. A rune of more than one byte has no byte that is a word character. *)
Fixpoint mentions_from (word : bool) (skip at_ : nat) (s : str) : list (nat * nat) :=
  match s with
  | [] => []
  | c :: r =>
    match skip with
    | S k => mentions_from (is_word c) k (S at_) r
    | O =>
      match (if word then None else mention_here s) with
      | Some n => (at_, at_ + n) :: mentions_from (is_word c) (n - 1) (S at_) r
      | None => mentions_from (is_word c) 0 (S at_) r
      end
    end
  end.
Definition mentions (s : str) : list (nat * nat) := mentions_from false 0 0 s.

Record reference := mkRef { rf_text : str; rf_start : nat; rf_end : nat; rf_pointer : option pointer }.
Section Refs.
Variable parse_ok : str -> bool.   (* schnorr.ParsePubKey on the decoded key *)
Definition hint (tags : list tag) (key v : str) : list str :=
  match find_with_value tags key v with Some (_ :: _ :: r :: _) => [r] | _ => [] end.
(** nip27/references.go:30-75; the second capture is what follows "nostr:" *)
Definition ref_pointer (tags : list tag) (code : str) : outcome (option pointer) :=
  match nip19_decode code with
  | Panic => Panic
  | Err => Ok None
  | Ok (prefix, KHex h) =>
    if seqb prefix (B "npub") then Ok (if valid_pubkey parse_ok h then Some (PProfile (mkProfile h (Some (hint tags (B "p") h)))) else None)
    else if seqb prefix (B "note") then Ok (Some (PEvent (mkEventPtr h None [] 0)))
    else Ok None
  | Ok (_, KPtr (PProfile p)) =>
    let q := mkProfile (pp_pubkey p) (fold_left snoc (hint tags (B "p") (pp_pubkey p)) (pp_relays p)) in
    Ok (if valid_pubkey parse_ok (pp_pubkey p) then Some (PProfile q) else None)
  | Ok (_, KPtr (PEvent p)) =>
    Ok (Some (PEvent (mkEventPtr (ep_id p) (fold_left snoc (hint tags (B "e") (ep_id p)) (ep_relays p))
      (match find_with_value tags (B "e") (ep_id p) with
       | Some (_ :: _ :: _ :: _ :: a :: _) => if empty (ep_author p) && valid_pubkey parse_ok a then a else ep_author p
       | _ => ep_author p
       end) (ep_kind p))))
  | Ok (_, KPtr (PEntity p)) =>
    Ok (Some (PEntity (mkEntity (en_pubkey p) (en_kind p) (en_identifier p) (fold_left snoc (hint tags (B "a") (entity_ref p)) (en_relays p)))))
  end.
(** nip27/references.go:21-82, all that is yielded when the consumer never stops. A panic stands for the whole, though what came before it was yielded. *)
Fixpoint references_at (content : str) (tags : list tag) (spans : list (nat * nat)) : outcome (list reference) :=
  match spans with
  | [] => Ok []
  | (i, j) :: r =>
    obind (slice content i j) (fun text =>
    obind (slice content (i + 6) j) (fun code =>
    obind (ref_pointer tags code) (fun p =>
    obind (references_at content tags r) (fun rs => Ok (mkRef text i j p :: rs)))))
  end.
Definition parse_references (e : event) : outcome (list reference) := references_at (ev_content e) (ev_tags e) (mentions (ev_content e)).
End Refs.

(** ** Threads *)
(** a pointer as nostr.Pointer holds it; nip73/pointer.go:8-10 *)
Inductive tpointer := TPtr (p : pointer) | TThing (thing : str).
Section Threads.
Variable parse_ok relay_ok : str -> bool.
(** p, _ := EventPointerFromTag(tag): the zero pointer when it fails *)
Definition event_of (t : tag) : tpointer := TPtr (PEvent (match event_ptr_from_tag parse_ok relay_ok t with Ok p => p | _ => mkEventPtr [] None [] 0 end)).
Definition entity_of (t : tag) : tpointer := TPtr (PEntity (match entity_from_tag parse_ok relay_ok t with Ok p => p | _ => mkEntity [] 0 [] None end)).
(** nip73/pointer.go:13-15 *)
Definition thing_of (t : tag) : tpointer := TThing (nth 1 t []).
Definition marked (t : tag) (m : str) : bool := match nth_error t 3 with Some x => seqb x m | None => false end.
(** nip10/nip10.go:5-21 *)
Definition nip10_root (tags : list tag) : option tpointer :=
  match find (fun t => seqb (tag_key t) (B "e") && marked t (B "root")) tags with
  | Some t => Some (event_of t)
  | None => match find_tag tags (B "e") with
            | Some t => Some (TPtr (PEvent (mkEventPtr (nth 1 t []) None [] 0)))
            | None => None
            end
  end.
(** nip10/nip10.go:27-54: [parent] and [last] when the loop ends *)
Fixpoint parent_loop (tags : list tag) (parent last : option tag) : option tag * option tag :=
  match tags with
  | [] => (parent, last)
  | t :: r =>
    match t with
    | k :: _ :: _ =>
      if negb (seqb k (B "e")) && negb (seqb k (B "a")) then parent_loop r parent last
      else if marked t (B "reply") then (Some t, last)
      else if marked t (B "parent") then parent_loop r (Some t) last
      else if marked t (B "mention") then parent_loop r parent last
      else parent_loop r parent (Some t)
    | _ => parent_loop r parent last
    end
  end.
(** nip10/nip10.go:23-72 *)
Definition nip10_parent (tags : list tag) : option tpointer :=
  match parent_loop tags None None with
  | (Some t, _) => Some (event_of t)
  | (None, Some t) => Some (TPtr (PEvent (mkEventPtr (nth 1 t []) None [] 0)))
  | (None, None) => None
  end.
(** nip22/nip22.go:8-26 and 28-46: the first tag of the three names that has a value *)
Fixpoint nip22_first (ke ka ki : str) (tags : list tag) : option tpointer :=
  match tags with
  | [] => None
  | t :: r =>
    match t with
    | k :: _ :: _ =>
      if seqb k ke then Some (event_of t) else if seqb k ka then Some (entity_of t) else if seqb k ki then Some (thing_of t)
      else nip22_first ke ka ki r
    | _ => nip22_first ke ka ki r
    end
  end.
Definition nip22_root := nip22_first (B "E") (B "A") (B "I").
Definition nip22_parent := nip22_first (B "e") (B "a") (B "i").
End Threads.
