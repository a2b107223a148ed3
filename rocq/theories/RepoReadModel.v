(** Reading what others published about a repository (/repo/nip34/repository.go) and where a person reads private messages (/repo/nip17/nip17.go),
    and pointers to things outside (/repo/nip73/pointer.go). *)
From Verif Require Import Base EventModel TagsModel FilterModel Nip19Model StructModel.
Import ListNotations.
Local Open Scope Z_scope.

Definition ask (kinds : list Z) (authors : option (list str)) (tags : list (str * option (list str))) : nfilter :=
  mkFilter None (Some kinds) authors tags None None 0 [] false.

(** nip34/repository.go:102-107. [ev]: the announcement, embedded in the repository; repo.Tags are its tags. *)
Definition state_filter (ev : event) : nfilter := ask [30618] None [(B "d", Some [get_d (ev_tags ev)])].
(** nip34/repository.go:101-115. [query]: RelayStore.QuerySync, its error dropped *)
Definition fetch_state (query : nfilter -> list event) (ev : event) : option (event * rstate) :=
  match query (state_filter ev) with [] => None | e :: _ => Some (e, parse_state (ev_tags e)) end.

(** nip34/repository.go:118-123: repo.ID is the field the announcement was parsed into *)
Definition patches_filter (ev : event) : nfilter :=
  ask [1617] None [(B "a", Some [dec_Z 30617 ++ B ":" ++ ev_pubkey ev ++ B ":" ++ rp_id (parse_repo (ev_tags ev))])].
(** nip34/repository.go:117-129; of a patch, its event and the repository it names *)
Definition get_patches (query : nfilter -> list event) (ev : event) : list (event * entity_pointer) :=
  map (fun e => (e, patch_repo (ev_tags e))) (query (patches_filter ev)).

(** nip17/nip17.go:13-16 *)
Definition dm_filter (pk : str) : nfilter := ask [10050] (Some [pk]) [].
(** nip17/nip17.go:21-31 *)
Fixpoint dm_loop (ts : list tag) (res : list str) : list str :=
  match ts with
  | [] => res
  | t :: ts' => match t with
                | k :: v :: _ => if seqb k (B "relay") then let res' := res ++ [v] in if Nat.eqb (length res') 3 then res' else dm_loop ts' res' else dm_loop ts' res
                | _ => dm_loop ts' res
                end
  end.
(** nip17/nip17.go:12-32. [single]: SimplePool.QuerySingle *)
Definition get_dm_relays (single : nfilter -> option event) (pk : str) : option (list str) :=
  match single (dm_filter pk) with None => None | Some e => Some (dm_loop (ev_tags e) []) end.

(** nip73/pointer.go:13-15, 17-23 *)
Definition ext_from_tag (t : tag) : outcome str := match t with _ :: x :: _ => Ok x | _ => Panic end.
Definition ext_matches (thing : str) (e : event) : bool := false.
Definition ext_reference (thing : str) : str := thing.
Definition ext_filter (thing : str) : nfilter := mkFilter None None None [] None None 0 [] false.
Definition ext_tag (thing : str) : tag := [B "i"; thing].
