(** Collecting the keys of the web of trust and the filter made of them: /repo/sdk/wot.go:102-167. *)
From Verif Require Import Base Machine WotModel.
Import ListNotations.

(** ** loadWoT, wot.go:102-140 *)
(** One goroutine of the group, wot.go:116-128: sending its own key; loading; sending what is left of the list; wg.Done called; returned, the group's place free again *)
Inductive kphase := KSelf | KLoad | KList (rest : list str) | KDone | KGone.
(** its key, what FetchFollowList gave it (a timeout gives what it gives, any list), where it is *)
Record worker := mkWk { k_key : str; k_list : list str; k_at : kphase }.
(** The first goroutine, wot.go:112-132: before wg.Add for the next key; in g.Go with that key; past its own wg.Done *)
Inductive first := FLoop (todo : list str) | FGo (k : str) (todo : list str) | FEnd.
(** l_wg: the counter of the WaitGroup; l_got: what the reader of the channel has taken, in order; l_bad: a send on a closed channel, a second close or a negative counter *)
Record lw := mkLw { lw_first : first; lw_workers : list worker; lw_wg : Z; lw_closed : bool; lw_got : list str; lw_bad : bool }.
Inductive lact := AAdd | AGo | AEnd | ASend (i : nat) | ALoad (i : nat) (l : list str) | ADone (i : nat) | ARet (i : nat) | AClose.
(** g.SetLimit, wot.go:104 *)
Definition group_limit : nat := 45.
Definition busy (w : worker) : bool := match k_at w with KGone => false | _ => true end.
(** A send on the channel, which has no buffer: the reader of wot.go:145 takes it at once. *)
Definition send_on (s : lw) (i : nat) (w : worker) (k : str) : lw :=
  if lw_closed s then mkLw (lw_first s) (lw_workers s) (lw_wg s) true (lw_got s) true
  else mkLw (lw_first s) (upd (lw_workers s) i w) (lw_wg s) false (lw_got s ++ [k]) (lw_bad s).
Definition wg_done (z : Z) : Z := (z - 1)%Z.
Definition lw_step (a : lact) (s : lw) : option lw :=
  if lw_bad s then None else
  match a with
  | AAdd => match lw_first s with FLoop (k :: r) => Some (mkLw (FGo k r) (lw_workers s) (lw_wg s + 1)%Z (lw_closed s) (lw_got s) false) | _ => None end   (* 114 *)
  | AGo => match lw_first s with   (* 116: waits for a place *)
      | FGo k r => if Nat.ltb (cnt busy (lw_workers s)) group_limit then Some (mkLw (FLoop r) (lw_workers s ++ [mkWk k [] KSelf]) (lw_wg s) (lw_closed s) (lw_got s) false) else None
      | _ => None end
  | AEnd => match lw_first s with FLoop [] => Some (mkLw FEnd (lw_workers s) (wg_done (lw_wg s)) (lw_closed s) (lw_got s) (wg_done (lw_wg s) <? 0)%Z) | _ => None end   (* 131 *)
  | ASend i => match nth_error (lw_workers s) i with
      | Some (mkWk k l KSelf) => Some (send_on s i (mkWk k l KLoad) k)   (* 117 *)
      | Some (mkWk k l (KList (x :: r))) => Some (send_on s i (mkWk k l (KList r)) x)   (* 124 *)
      | _ => None end
  | ALoad i l => match nth_error (lw_workers s) i with   (* 119-122 *)
      | Some (mkWk k _ KLoad) => Some (mkLw (lw_first s) (upd (lw_workers s) i (mkWk k l (KList l))) (lw_wg s) (lw_closed s) (lw_got s) false)
      | _ => None end
  | ADone i => match nth_error (lw_workers s) i with   (* 126 *)
      | Some (mkWk k l (KList [])) => Some (mkLw (lw_first s) (upd (lw_workers s) i (mkWk k l KDone)) (wg_done (lw_wg s)) (lw_closed s) (lw_got s) (wg_done (lw_wg s) <? 0)%Z)
      | _ => None end
  | ARet i => match nth_error (lw_workers s) i with   (* 127 *)
      | Some (mkWk k l KDone) => Some (mkLw (lw_first s) (upd (lw_workers s) i (mkWk k l KGone)) (lw_wg s) (lw_closed s) (lw_got s) false)
      | _ => None end
  | AClose => if (lw_wg s =? 0)%Z && negb (lw_closed s) then Some (mkLw (lw_first s) (lw_workers s) (lw_wg s) true (lw_got s) false) else None   (* 135-136 *)
  end.
(** wot.go:102-113; [follows]: the follow list of the user *)
Definition lw_init (follows : list str) : lw := mkLw (FLoop follows) [] 1 false [] false.

(** ** makeWoTFilter, wot.go:142-155: the set of short ids in the order of their first appearance. *)
Fixpoint shids_of (pks : list str) (seen : list Z) : outcome (list Z) :=
  match pks with
  | [] => Ok seen
  | pk :: r => obind (pubkey_to_shid pk) (fun x => shids_of r (if existsb (Z.eqb x) seen then seen else seen ++ [x]))
  end.
Section Filter.
(** xorfilter.Populate and Contains *)
Variable F : Type.
Variable populate : list Z -> option F.
Variable holds : F -> Z -> bool.
(** The filter and the number of its items; the error of Populate is dropped and its nil result read, a panic *)
Definition make_wot_filter (pks : list str) : outcome (Z * F) :=
  obind (shids_of pks []) (fun l => match populate l with Some x => Ok (Z.of_nat (length l), x) | None => Panic end).
(** Contains, wot.go:162-167 *)
Definition wot_contains (x : Z * F) (pk : str) : outcome bool :=
  if (fst x =? 0)%Z then Ok false else obind (pubkey_to_shid pk) (fun id => Ok (holds (snd x) id)).
End Filter.
