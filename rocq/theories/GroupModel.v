(** Relay-based groups: /repo/nip29. *)
From Verif Require Import Base EventModel TagsModel Nip19Model.
Import ListNotations.
Local Open Scope Z_scope.

(** nip29/nip29.go:9-12. The code holds pointers to roles; only their contents matter outside String. *)
Record role := mkRole { ro_name : str; ro_description : str }.
(** nip29/group.go:38-54. Members: the Go map as an association list with distinct keys, in the order the next iteration gives. *)
Record group := mkGroup { gr_relay : str; gr_id : str; gr_name : str; gr_picture : str; gr_about : str; gr_members : list (str * list role);
  gr_private : bool; gr_closed : bool; gr_roles : list role; gr_meta_at : Z; gr_admins_at : Z; gr_members_at : Z; gr_roles_at : Z }.
(** group.Members[k], nil when absent; assignment *)
Definition roles_of (k : str) (m : list (str * list role)) : list role := match find (fun x => seqb (fst x) k) m with Some x => snd x | None => [] end.
Definition is_member (k : str) (m : list (str * list role)) : bool := existsb (fun x => seqb (fst x) k) m.
Fixpoint set_roles (k : str) (r : list role) (m : list (str * list role)) : list (str * list role) :=
  match m with [] => [(k, r)] | x :: l => if seqb (fst x) k then (k, r) :: l else x :: set_roles k r l end.

(** nip29/group.go:30-36: strings.Split at "'" into exactly two; nostr.NormalizeURL is given *)
Section Address.
Variable normalize : str -> str.
Variable url_host : str -> option str.   (* url.Parse, its Host *)
Definition quote1 : ascii := "'"%char.
Definition parse_address (raw : str) : option (str * str) :=   (* relay, id *)
  match cut quote1 raw with
  | None => None
  | Some (a, b) => if existsb (fun c => ceqb c quote1) b then None else Some (normalize a, b)
  end.
(** nip29/group.go:17-20: the error of url.Parse is dropped and nil dereferenced *)
Definition address_string (relay id : str) : outcome str := match url_host relay with Some h => Ok (h ++ quote1 :: id) | None => Panic end.
(** nip29/group.go:95-107 *)
Definition new_group (raw : str) : option group :=
  match parse_address raw with Some (relay, id) => Some (mkGroup relay id id [] [] [] false false [] 0 0 0 0) | None => None end.
End Address.

(** nip29/group.go:124-155 *)
Definition metadata_tags (g : group) : list tag :=
  [[B "d"; gr_id g]] ++ (match gr_name g with [] => [] | n => [[B "name"; n]] end) ++ (match gr_about g with [] => [] | a => [[B "about"; a]] end) ++ (match gr_picture g with [] => [] | p => [[B "picture"; p]] end) ++
  [if gr_private g then [B "private"] else [B "public"]] ++ [if gr_closed g then [B "closed"] else [B "open"]].
Definition plain_event (kind at_ : Z) (ts : list tag) : event := mkEvent [] [] at_ kind ts [] [].
Definition to_metadata (g : group) : event := plain_event 39000 (gr_meta_at g) (metadata_tags g).
(** nip29/group.go:157-183, 185-199 *)
Definition admin_tag (x : str * list role) : list tag := match snd x with [] => [] | rs => [B "p" :: fst x :: map ro_name rs] end.
Definition to_admins (g : group) : event := plain_event 39001 (gr_admins_at g) ([B "d"; gr_id g] :: flat_map admin_tag (gr_members g)).
Definition to_members (g : group) : event := plain_event 39002 (gr_members_at g) ([B "d"; gr_id g] :: map (fun x => [B "p"; fst x]) (gr_members g)).
(** nip29/group.go:201-215: the time is the members' *)
Definition to_roles (g : group) : event := plain_event 39003 (gr_members_at g) ([B "d"; gr_id g] :: map (fun r => [B "role"; ro_name r; ro_description r]) (gr_roles g)).

(** tag[1] of the first tag found, or what there was; GetFirst with two items only finds tags of two items or more *)
Definition second (o : outcome (option tag)) (or_ : str) : outcome str :=
  obind o (fun t => match t with None => Ok or_ | Some (_ :: v :: _) => Ok v | Some _ => Panic end).
Definition found (o : outcome (option tag)) (or_ : bool) : outcome bool := obind o (fun t => Ok (match t with Some _ => true | None => or_ end)).
(** nip29/group.go:217-246 *)
Definition merge_metadata (g : group) (e : event) : outcome group :=
  if negb (ev_kind e =? 39000) then Err else
  if ev_created_at e <? gr_meta_at g then Err else
  obind (second (get_first (ev_tags e) [B "name"; []]) (gr_id g)) (fun name =>
  obind (second (get_first (ev_tags e) [B "about"; []]) (gr_about g)) (fun about =>
  obind (second (get_first (ev_tags e) [B "picture"; []]) (gr_picture g)) (fun picture =>
  obind (found (get_first (ev_tags e) [B "private"]) (gr_private g)) (fun private =>
  obind (found (get_first (ev_tags e) [B "closed"]) (gr_closed g)) (fun closed =>
  Ok (mkGroup (gr_relay g) (gr_id g) name picture about (gr_members g) private closed (gr_roles g) (ev_created_at e) (gr_admins_at g) (gr_members_at g) (gr_roles_at g))))))).
(** nip29/utils.go:5-12 *)
Definition role_by_name (roles : list role) (name : str) : role := match find (fun r => seqb (ro_name r) name) roles with Some r => r | None => mkRole name [] end.
(** nip29/group.go:248-276 *)
Definition admin_step (roles : list role) (m : list (str * list role)) (t : tag) : list (str * list role) :=
  match t with
  | k :: pk :: r1 :: rest => if seqb k (B "p") && valid_32byte_hex pk
      then fold_left (fun m n => set_roles pk (roles_of pk m ++ [role_by_name roles n]) m) (r1 :: rest) m else m
  | _ => m
  end.
Definition merge_admins (g : group) (e : event) : outcome group :=
  if negb (ev_kind e =? 39001) then Err else
  if ev_created_at e <? gr_admins_at g then Err else
  Ok (mkGroup (gr_relay g) (gr_id g) (gr_name g) (gr_picture g) (gr_about g) (fold_left (admin_step (gr_roles g)) (ev_tags e) (gr_members g)) (gr_private g) (gr_closed g) (gr_roles g)
      (gr_meta_at g) (ev_created_at e) (gr_members_at g) (gr_roles_at g)).
(** nip29/group.go:278-302 *)
Definition member_step (m : list (str * list role)) (t : tag) : list (str * list role) :=
  match t with
  | k :: pk :: _ => if seqb k (B "p") && valid_32byte_hex pk then if is_member pk m then m else set_roles pk [] m else m
  | _ => m
  end.
Definition merge_members (g : group) (e : event) : outcome group :=
  if negb (ev_kind e =? 39002) then Err else
  if ev_created_at e <? gr_members_at g then Err else
  Ok (mkGroup (gr_relay g) (gr_id g) (gr_name g) (gr_picture g) (gr_about g) (fold_left member_step (ev_tags e) (gr_members g)) (gr_private g) (gr_closed g) (gr_roles g)
      (gr_meta_at g) (gr_admins_at g) (ev_created_at e) (gr_roles_at g)).
(** nip29/group.go:109-122 *)
Definition group_from_event (relay : str) (e : event) : outcome group :=
  merge_metadata (mkGroup relay (get_d (ev_tags e)) (get_d (ev_tags e)) [] [] [] false false [] 0 0 0 0) e.

(** ** nip29/nip29.go:14-36. slices.BinarySearch: [i, j) halved until empty; [fuel] bounds the halvings *)
Fixpoint search (fuel : nat) (l : list Z) (x : Z) (i j : nat) : nat :=
  match fuel with
  | O => i
  | S f => if Nat.ltb i j then let h := Nat.div2 (i + j) in if nth h l 0 <? x then search f l x (S h) j else search f l x i h else i
  end.
Definition includes (l : list Z) (x : Z) : bool := let i := search (length l) l x 0 (length l) in Nat.ltb i (length l) && (nth i l 0 =? x).
(** kinds.go *)
Definition moderation_kinds : list Z := [9000; 9001; 9002; 9005; 9007; 9008; 9009].
Definition metadata_kinds : list Z := [39000; 39001; 39002; 39003].
