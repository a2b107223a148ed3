(** Paging through stored events, /repo/paginator.go, and several stores as one, /repo/interface.go. *)
From Verif Require Import Base Machine.
Import ListNotations.

Record pevent := mkPE { p_id : str; p_ts : Z }.

(** repeatedCache and nextRepeatedCache, paginator.go:25-26,61-62. After the first page both are slices of the same array ([pc_shared]):
    appending to the second overwrites the first, until the capacity is exceeded and append moves to a new array. *)
Record pcache := mkPC { pc_rep : list str; pc_next : list str; pc_shared : bool; pc_cap : nat }.
Definition pc_append (grow : nat -> nat) (id : str) (c : pcache) : pcache :=
  let i := length (pc_next c) in
  if Nat.ltb i (pc_cap c) then mkPC (if pc_shared c then upd (pc_rep c) i id else pc_rep c) (pc_next c ++ [id]) (pc_shared c) (pc_cap c)
  else mkPC (pc_rep c) (pc_next c ++ [id]) false (grow (pc_cap c)).
Definition pc_turn (c : pcache) : pcache := mkPC (pc_next c) [] true (pc_cap c).
Definition pc_init : pcache := mkPC [] [] false 300.

Record pstate := mkPS { ps_cache : pcache; ps_until : Z; ps_out : list pevent; ps_count : Z; ps_keep : bool }.
(** paginator.go:36-55: one page. The second component tells that the limit was reached. filter.Until points to nextUntil. *)
Fixpoint one_page (grow : nat -> nat) (limit : Z) (evs : list pevent) (s : pstate) : pstate * bool :=
  match evs with
  | [] => (s, false)
  | e :: r =>
      if existsb (seqb (p_id e)) (pc_rep (ps_cache s)) then one_page grow limit r s
      else
        let c := pc_append grow (p_id e) (ps_cache s) in
        let out := ps_out s ++ [e] in
        let count := (ps_count s + 1)%Z in
        if Z.leb limit count then (mkPS c (ps_until s) out count true, true)
        else one_page grow limit r (mkPS c (if Z.ltb (p_ts e) (ps_until s) then p_ts e else ps_until s) out count true)
  end.
(** paginator.go:31-63. [page until] is what FetchMany gives, in order of arrival; the sleep is left out. None: still going. *)
Fixpoint pages (fuel : nat) (grow : nat -> nat) (limit : Z) (page : Z -> list pevent) (s : pstate) : option (list pevent) :=
  match fuel with
  | O => None
  | S f =>
      let '(s1, full) := one_page grow limit (page (ps_until s)) (mkPS (ps_cache s) (ps_until s) (ps_out s) (ps_count s) false) in
      if full then Some (ps_out s1)
      else if negb (ps_keep s1) then Some (ps_out s1)
      else pages f grow limit page (mkPS (pc_turn (ps_cache s1)) (ps_until s1) (ps_out s1) (ps_count s1) (ps_keep s1))
  end.
(** paginator.go:19-22; [limit] is filter.Limit, an int converted to uint64 *)
Definition global_limit (limit : Z) (limit_zero : bool) : Z :=
  if (Z.eqb (limit mod 2 ^ 64) 0 && negb limit_zero)%bool then (2 ^ 64 - 1)%Z else (limit mod 2 ^ 64)%Z.
Definition paginate (fuel : nat) (grow : nat -> nat) (until limit : Z) (limit_zero : bool) (page : Z -> list pevent) : option (list pevent) :=
  pages fuel grow (global_limit limit limit_zero) page (mkPS pc_init until [] 0 false).

(** A relay with the events [store], newest first, that answers with at most [cap] of those not newer than [until]. Not in /repo. *)
Definition answer (cap : nat) (store : list pevent) (until : Z) : list pevent := firstn cap (filter (fun e => Z.leb (p_ts e) until) store).

(** ** MultiStore *)
(** errors.Join: nil without errors, else their texts on lines of their own. An error is its text. *)
Fixpoint join_texts (l : list str) : str := match l with [] => [] | x :: r => match r with [] => x | _ => x ++ byte_of 10 :: join_texts r end end.
Fixpoint texts (l : list (option str)) : list str := match l with [] => [] | Some x :: r => x :: texts r | None :: r => texts r end.
Definition errors_join (l : list (option str)) : option str := match texts l with [] => None | t => Some (join_texts t) end.

Section Multi.
Variables (St E : Type) (ts : E -> Z).
Variable pub : St -> E -> St * option str.                      (* RelayStore.Publish of one store *)
Variable query : St -> list E * option str.                     (* RelayStore.QuerySync, for a fixed filter *)
Variable sort : (E -> E -> Z) -> list E -> list E.              (* slices.SortFunc *)
(** interface.go:22-28 *)
Definition multi_publish (stores : list St) (e : E) : list St * option str :=
  (map (fun s => fst (pub s e)) stores, errors_join (map (fun s => snd (pub s e)) stores)).
(** interface.go:64-71 *)
Definition newest_first (a b : E) : Z := if Z.ltb (ts a) (ts b) then 1 else if Z.ltb (ts b) (ts a) then -1 else 0.
(** interface.go:55-73 *)
Definition multi_query_sync (stores : list St) : list E * option str :=
  (sort newest_first (concat (map (fun s => fst (query s)) stores)), errors_join (map (fun s => snd (query s)) stores)).
End Multi.

(** interface.go:30-53 (QueryEvents): one goroutine for each store that gave a channel. [f_todo]: what that channel still holds,
    before it is closed. Sending waits for the reader, so a step is a delivery. Nothing in the code closes multich. *)
Record fwd (E : Type) := mkFwd { f_todo : list E; f_done : bool }.
Arguments mkFwd {E}. Arguments f_todo {E}. Arguments f_done {E}.
Record mq (E : Type) := mkMQ { mq_fwds : list (fwd E); mq_out : list (nat * E); mq_closed : bool }.
Arguments mkMQ {E}. Arguments mq_fwds {E}. Arguments mq_out {E}. Arguments mq_closed {E}.
Inductive mqaction := QForward (i : nat) | QLeave (i : nat).
Definition mq_step {E} (a : mqaction) (s : mq E) : option (mq E) :=
  match a with
  | QForward i => match nth_error (mq_fwds s) i with
      | Some f => match f_todo f with
                  | e :: r => Some (mkMQ (upd (mq_fwds s) i (mkFwd r (f_done f))) (mq_out s ++ [(i, e)]) (mq_closed s))
                  | [] => None end
      | None => None end
  | QLeave i => match nth_error (mq_fwds s) i with
      | Some f => match f_todo f with
                  | [] => if f_done f then None else Some (mkMQ (upd (mq_fwds s) i (mkFwd [] true)) (mq_out s) (mq_closed s))
                  | _ => None end
      | None => None end
  end.
Fixpoint goods {E} (l : list (list E + str)) : list (list E) := match l with [] => [] | inl c :: r => c :: goods r | inr _ :: r => goods r end.
Definition bads {E} (l : list (list E + str)) : list (option str) := map (fun x => match x with inl _ => None | inr e => Some e end) l.
Definition multi_query_events {E} (answers : list (list E + str)) : mq E + option str :=
  match goods answers with
  | [] => inr (errors_join (bads answers))
  | g => inl (mkMQ (map (fun c => mkFwd c false) g) [] false)
  end.
