(** Synchronising a store with a relay, /repo/nip77/nip77.go, idsonly.go and idlistpool.go: the goroutines, their channels and the batches. *)
From Verif Require Import Base Machine.
Import ListNotations.
Local Open Scope nat_scope.

(** What the goroutine that reads from the relay does in turn (nip77.go:49-72): the sends and the close within neg.Reconcile (negentropy.go:180, 189, 79-80), or an error to report. What the relay sends decides this. *)
Inductive ract := RHave (id : str) | RNeed (id : str) | RClose | RError.
Inductive side := Up | Down.
Definition side_eqb (a b : side) : bool := match a, b with Up, Up | Down, Down => true | _, _ => false end.
(** A worker of nip77.go:103-145. [W_off]: there is none in this direction; [W_run]: in the loop over items, with the list being filled and the ids seen; [W_last]: in the last call of doSync; [W_done]. *)
Inductive worker := W_off | W_run (ids seen : list str) | W_last (ids : list str) | W_done.
(** A call of doSync that asks for these ids, and whether it still runs. *)
Record batch := mkBatch { b_side : side; b_ids : list str; b_on : bool }.
(** [s_main]: what NegentropySync returned, Some true for nil. *)
Record nst := mkNst { s_prog : list ract; s_have : list str; s_need : list str; s_closed : bool; s_up : worker; s_down : worker; s_batches : list batch; s_main : option bool; s_crashed : bool }.
(** negentropy.go:42-43, buckets*4 *)
Definition cap : nat := 64.
Definition queue (d : side) (s : nst) : list str := match d with Up => s_have s | Down => s_need s end.
Definition wk (d : side) (s : nst) : worker := match d with Up => s_up s | Down => s_down s end.
Definition set_queue (d : side) (q : list str) (s : nst) : nst :=
  match d with
  | Up => mkNst (s_prog s) q (s_need s) (s_closed s) (s_up s) (s_down s) (s_batches s) (s_main s) (s_crashed s)
  | Down => mkNst (s_prog s) (s_have s) q (s_closed s) (s_up s) (s_down s) (s_batches s) (s_main s) (s_crashed s)
  end.
Definition set_wk (d : side) (w : worker) (s : nst) : nst :=
  match d with
  | Up => mkNst (s_prog s) (s_have s) (s_need s) (s_closed s) w (s_down s) (s_batches s) (s_main s) (s_crashed s)
  | Down => mkNst (s_prog s) (s_have s) (s_need s) (s_closed s) (s_up s) w (s_batches s) (s_main s) (s_crashed s)
  end.
Definition set_batches (b : list batch) (s : nst) : nst := mkNst (s_prog s) (s_have s) (s_need s) (s_closed s) (s_up s) (s_down s) b (s_main s) (s_crashed s).
Definition set_main (m : bool) (s : nst) : nst := mkNst (s_prog s) (s_have s) (s_need s) (s_closed s) (s_up s) (s_down s) (s_batches s) (Some m) (s_crashed s).
Definition set_prog (p : list ract) (s : nst) : nst := mkNst p (s_have s) (s_need s) (s_closed s) (s_up s) (s_down s) (s_batches s) (s_main s) (s_crashed s).
Definition set_closed (s : nst) : nst := mkNst (s_prog s) (s_have s) (s_need s) true (s_up s) (s_down s) (s_batches s) (s_main s) (s_crashed s).
Definition crash (s : nst) : nst := mkNst (s_prog s) (s_have s) (s_need s) (s_closed s) (s_up s) (s_down s) (s_batches s) (s_main s) true.
Inductive nact := AReader | ATake (d : side) | AEnd (d : side) | ALast (d : side) (ok : bool) | ABatch (i : nat) (ok : bool) | AWait.
Definition idle (w : worker) : bool := match w with W_off | W_done => true | _ => false end.
(** A send on a channel waits until there is room; a send on [result] until NegentropySync receives, which it does once. A send on or a close of a closed channel panics. *)
Definition nstep (a : nact) (s : nst) : option nst :=
  if s_crashed s then None else
  match a with
  | AReader =>
    match s_prog s with
    | [] => None
    | RHave x :: p => if s_closed s then Some (crash s) else if length (s_have s) <? cap then Some (set_prog p (set_queue Up (s_have s ++ [x]) s)) else None
    | RNeed x :: p => if s_closed s then Some (crash s) else if length (s_need s) <? cap then Some (set_prog p (set_queue Down (s_need s ++ [x]) s)) else None
    | RClose :: p => if s_closed s then Some (crash s) else Some (set_prog p (set_closed s))
    | RError :: p => match s_main s with None => Some (set_prog p (set_main false s)) | Some _ => None end
    end
  | ATake d => (* nip77.go:128-141 *)
    match wk d s, queue d s with
    | W_run ids seen, x :: q =>
      if existsb (seqb x) seen then Some (set_queue d q s) else
      let ids' := ids ++ [x] in
      if length ids' =? 50
      then Some (set_wk d (W_run [] (x :: seen)) (set_queue d q (set_batches (s_batches s ++ [mkBatch d ids' true]) s)))
      else Some (set_wk d (W_run ids' (x :: seen)) (set_queue d q s))
    | _, _ => None
    end
  | AEnd d => (* nip77.go:142-143 *)
    match wk d s, queue d s with
    | W_run ids _, [] => if s_closed s then Some (set_wk d (W_last ids) s) else None
    | _, _ => None
    end
  | ALast d ok => (* nip77.go:110-125 in the worker itself; an empty list does nothing *)
    match wk d s with
    | W_last [] => if ok then Some (set_wk d W_done s) else None
    | W_last ids => if ok then Some (set_wk d W_done (set_batches (s_batches s ++ [mkBatch d ids false]) s))
                    else match s_main s with None => Some (set_main false (set_wk d W_done (set_batches (s_batches s ++ [mkBatch d ids false]) s))) | Some _ => None end
    | _ => None
    end
  | ABatch i ok => (* the same in a goroutine of its own *)
    match nth_error (s_batches s) i with
    | Some b => if b_on b then
        let s' := set_batches (upd (s_batches s) i (mkBatch (b_side b) (b_ids b) false)) s in
        if ok then Some s' else match s_main s with None => Some (set_main false s') | Some _ => None end
      else None
    | None => None
    end
  | AWait => (* nip77.go:148-151 *)
    if idle (s_up s) && idle (s_down s) && forallb (fun b => negb (b_on b)) (s_batches s)
    then match s_main s with None => Some (set_main true s) | Some _ => None end else None
  end.
(** nip77.go:97-101: which workers there are *)
Definition ninit (p : list ract) (up down : bool) : nst :=
  mkNst p [] [] false (if up then W_run [] [] else W_off) (if down then W_run [] [] else W_off) [] None false.

(** ** idlistpool.go, used by the workers (grab) and by every call of doSync (giveback). A list is known by a number. grab holds the lock; giveback does not, and reads the pool before it writes it. *)
Record pst := mkPst { p_pool : list nat; p_next : nat; p_out : list nat; p_back : list (nat * list nat) }.
Inductive pact := PGrab | PRead (x : nat) | PWrite (i : nat).
Fixpoint take_out (x : nat) (l : list nat) : option (list nat) :=
  match l with [] => None | y :: r => if Nat.eqb x y then Some r else match take_out x r with Some t => Some (y :: t) | None => None end end.
Definition pool_step (a : pact) (s : pst) : option pst :=
  match a with
  | PGrab => (* idlistpool.go:24-36; [p_out]: the lists in use *)
    match rev (p_pool s) with
    | x :: r => Some (mkPst (rev r) (p_next s) (x :: p_out s) (p_back s))
    | [] => Some (mkPst [] (S (p_next s)) (p_next s :: p_out s) (p_back s))
    end
  | PRead x => (* idlistpool.go:40, the right side: a doSync that has this list reads ilp.pool *)
    match take_out x (p_out s) with
    | Some o => Some (mkPst (p_pool s) (p_next s) o (p_back s ++ [(x, p_pool s)]))
    | None => None
    end
  | PWrite i => (* idlistpool.go:40, the left side *)
    match nth_error (p_back s) i with
    | Some (x, l) => Some (mkPst (l ++ [x]) (p_next s) (p_out s) (firstn i (p_back s) ++ skipn (S i) (p_back s)))
    | None => None
    end
  end.
Definition pool_init : pst := mkPst [0] 1 [] [].

(** ** idsonly.go: one goroutine forwards the ids needed to the caller, and nothing reads [result]. *)
Record fst_ := mkF { f_prog : list ract; f_need : list str; f_closed : bool; f_got : list str; f_done : bool; f_crashed : bool }.
Inductive fact := FReader | FForward.
Definition fstep (a : fact) (s : fst_) : option fst_ :=
  if f_crashed s then None else
  match a with
  | FReader =>
    match f_prog s with
    | RNeed x :: p => if f_closed s then Some (mkF (f_prog s) (f_need s) (f_closed s) (f_got s) (f_done s) true)
                      else if length (f_need s) <? cap then Some (mkF p (f_need s ++ [x]) (f_closed s) (f_got s) (f_done s) false) else None
    | RClose :: p => if f_closed s then Some (mkF (f_prog s) (f_need s) (f_closed s) (f_got s) (f_done s) true) else Some (mkF p (f_need s) true (f_got s) (f_done s) false)
    | _ => None   (* an error waits for ever; there is nothing of ours that they do not have *)
    end
  | FForward => (* idsonly.go:60-67, with a caller that takes what comes *)
    match f_need s with
    | x :: q => Some (mkF (f_prog s) q (f_closed s) (f_got s ++ [x]) (f_done s) false)
    | [] => if f_closed s && negb (f_done s) then Some (mkF (f_prog s) [] true (f_got s) true false) else None
    end
  end.
Definition finit (p : list ract) : fst_ := mkF p [] false [] false false.
