(** A relay connection: the reader loop, subscription ids, Publish and Close. /repo/relay.go, /repo/helpers.go. *)
From Verif Require Import Base Machine EventModel FilterModel EnvelopeModel.
Import ListNotations.

(** ** Subscription ids *)
(** strconv.AppendInt, ':' and the label (relay.go:458-463). *)
Definition sub_id (counter : Z) (label : str) : str := dec_Z counter ++ ":"%char :: label.

(** The value strconv.ParseInt(s, 10, 64) returns beside its error: a bound on range errors, 0 on syntax errors. *)
Definition parse_int_value (s : str) : Z :=
  match parse_int s with
  | Some z => z
  | None =>
    match s with
    | c :: r => if ceqb c "-"%char then match parse_digits r with Some _ => min_int64 | None => 0%Z end
                else if ceqb c "+"%char then match parse_digits r with Some _ => max_int64 | None => 0%Z end
                else match parse_digits s with Some _ => max_int64 | None => 0%Z end
    | [] => 0%Z
    end
  end.

Fixpoint cut_colon (s : str) : option str :=
  match s with
  | [] => None
  | c :: r => if ceqb c ":"%char then Some [] else match cut_colon r with Some a => Some (c :: a) | None => None end
  end.

(** helpers.go:102-109 *)
Definition sub_id_to_serial (s : str) : Z := match cut_colon s with None => (-1)%Z | Some a => parse_int_value a end.

(** PrepareSubscription, relay.go:429-472, one after another or interleaved: the counter is atomic, so each call takes the next
    value. The state is the counter and the ids given out so far, newest first. *)
Definition prepare (label : str) (st : Z * list str) : Z * list str :=
  let '(n, ids) := st in let c := (n + 1)%Z in (c, sub_id c label :: ids).
Definition prepare_all (labels : list str) : Z * list str := fold_left (fun st l => prepare l st) labels (0%Z, []).

(** ** The reader loop, relay.go:218-317 *)
Section Reader.
(** CheckSignature's result (event.go, signature.go): [Ok true] is (true, nil). *)
Variable check : event -> outcome bool.
Variable assume_valid : bool.
(** The checkDuplicate callback of a subscription and its private state (WithCheckDuplicate). *)
Variable D : Type.
Variable dup : str -> D -> bool * D.

Record rsub := mkR { r_serial : Z; r_filters : list nfilter; r_eosed : bool; r_dups : bool; r_counting : bool }.
Record reader := mkReader {
  rd_subs : list rsub;                  (* r.Subscriptions *)
  rd_dup : D;
  rd_out : list (Z * event);            (* dispatchEvent calls, newest first *)
  rd_closed : list (Z * str);           (* handleClosed calls *)
  rd_oks : list (str * bool * str);     (* OK messages *)
  rd_challenge : str;
  rd_crashed : bool
}.

Fixpoint find_sub (n : Z) (l : list rsub) : option rsub :=
  match l with [] => None | x :: r => if Z.eqb (r_serial x) n then Some x else find_sub n r end.
Definition set_eosed (n : Z) (l : list rsub) : list rsub :=
  map (fun x => if Z.eqb (r_serial x) n then mkR (r_serial x) (r_filters x) true (r_dups x) (r_counting x) else x) l.

(** sub.match: Filters.Match, and Filters.MatchIgnoringTimestampConstraints after the EOSE (subscription.go:122, relay.go:442) *)
Definition sub_match (x : rsub) (e : event) : bool :=
  if r_eosed x then filters_match_ignoring_time (r_filters x) (Some e) else filters_match (r_filters x) (Some e).

Definition crash (s : reader) : reader := mkReader (rd_subs s) (rd_dup s) (rd_out s) (rd_closed s) (rd_oks s) (rd_challenge s) true.

(** After the pre-check: relay.go:253-315. NOTICE, custom and COUNT handlers are calls out of the model. *)
Definition handle (found : option rsub) (msg : str) (s : reader) : reader :=
  match parse_message msg with
  | Panic => crash s
  | Err => s
  | Ok (EEvent _ e) =>
      match found with
      | None => s
      | Some x =>
          if negb (sub_match x e) then s
          else if negb assume_valid && negb (match check e with Ok b => b | _ => false end) then s
          else mkReader (rd_subs s) (rd_dup s) ((r_serial x, e) :: rd_out s) (rd_closed s) (rd_oks s) (rd_challenge s) (rd_crashed s)
      end
  | Ok (EEose id) => mkReader (set_eosed (sub_id_to_serial id) (rd_subs s)) (rd_dup s) (rd_out s) (rd_closed s) (rd_oks s) (rd_challenge s) (rd_crashed s)
  | Ok (EClosed id reason) =>
      match find_sub (sub_id_to_serial id) (rd_subs s) with
      | Some x => mkReader (rd_subs s) (rd_dup s) (rd_out s) ((r_serial x, reason) :: rd_closed s) (rd_oks s) (rd_challenge s) (rd_crashed s)
      | None => s
      end
  | Ok (EOk id b reason) => mkReader (rd_subs s) (rd_dup s) (rd_out s) (rd_closed s) ((id, b, reason) :: rd_oks s) (rd_challenge s) (rd_crashed s)
  | Ok (EAuth (Some c) _) => mkReader (rd_subs s) (rd_dup s) (rd_out s) (rd_closed s) (rd_oks s) c (rd_crashed s)
  | Ok _ => s
  end.

(** One message: relay.go:231-315. checkDuplicateReplaceable is left out here. *)
Definition read_message (msg : str) (s : reader) : reader :=
  match extract_sub_id msg with
  | Panic => crash s
  | Err => s
  | Ok id =>
      let found := find_sub (sub_id_to_serial id) (rd_subs s) in
      match found with
      | Some x =>
          if r_dups x then
            if Nat.ltb (length msg) (10 + length id) then crash s      (* message[10+len(subid):] *)
            else match extract_event_id (skipn (10 + length id) msg) with
                 | Ok eid =>
                     let '(b, d) := dup eid (rd_dup s) in
                     let s' := mkReader (rd_subs s) d (rd_out s) (rd_closed s) (rd_oks s) (rd_challenge s) (rd_crashed s) in
                     if b then s' else handle found msg s'
                 | _ => crash s
                 end
          else handle found msg s
      | None => handle found msg s
      end
  end.

Inductive raction := RMsg (msg : str) | RAdd (x : rsub) | RDelete (n : Z).
Definition reader_step (a : raction) (s : reader) : option reader :=
  if rd_crashed s then None else
  match a with
  | RMsg m => Some (read_message m s)
  | RAdd x => if r_eosed x then None     (* a new subscription has not seen its EOSE *)
              else Some (mkReader (x :: rd_subs s) (rd_dup s) (rd_out s) (rd_closed s) (rd_oks s) (rd_challenge s) (rd_crashed s))
  | RDelete n => Some (mkReader (filter (fun x => negb (Z.eqb (r_serial x) n)) (rd_subs s)) (rd_dup s) (rd_out s) (rd_closed s) (rd_oks s) (rd_challenge s) (rd_crashed s))
  end.
Definition reader_init (d : D) : reader := mkReader [] d [] [] [] [] false.
End Reader.
Arguments reader_init {D}. Arguments reader_step check assume_valid {D}. Arguments read_message check assume_valid {D}. Arguments handle check assume_valid {D}.
Arguments rd_subs {D}. Arguments rd_dup {D}. Arguments rd_out {D}. Arguments rd_closed {D}. Arguments rd_oks {D}. Arguments rd_challenge {D}. Arguments rd_crashed {D}.
Arguments mkReader {D}. Arguments crash {D}.

(** ** Publish, relay.go:333-403 *)
Inductive presult := POk | PRejected (reason : str) | PCtx | PWriteError.
Inductive pphase := QStore | QWrite | QWait | QDelete (r : presult) | QEnd (r : presult).
Record pub := mkPub { pb_id : str; pb_ph : pphase; pb_got : bool; pb_err : option str; pb_done : bool }.

(** The reader running an OK callback: gotOk = true; err = ...; cancel() (relay.go:376-380). *)
Inductive callback := CGot (i : nat) (ok : bool) (reason : str) | CErr (i : nat) (ok : bool) (reason : str) | CCancel (i : nat).

Inductive pobs :=
| NStart (i : nat) (id : str)                     (* okCallbacks.Store of publish i *)
| NAnswer (i : nat) (id : str) (ok : bool) (reason : str)   (* an OK message found the callback of publish i *)
| NExpire (i : nat)                               (* the caller's context or the 7 seconds end *)
| NLost                                           (* the connection context ends *)
| NReturn (i : nat) (r : presult).

Record pstate := mkPS { ps_pubs : list pub; ps_map : list (str * nat); ps_cb : option callback; ps_lost : bool; ps_log : list pobs }.

Inductive paction :=
| BNew (id : str)                        (* Publish is called *)
| BStep (i : nat) (lostcase : bool)      (* publish i takes its next step; in the select, [lostcase] picks connectionContext.Done *)
| BWriteFails (i : nat)
| BOk (id : str) (ok : bool) (reason : str)
| BCallback                              (* the reader continues the callback *)
| BExpire (i : nat)
| BLost.

Definition map_remove (id : str) (m : list (str * nat)) : list (str * nat) := filter (fun p => negb (seqb (fst p) id)) m.
Definition map_store (id : str) (i : nat) (m : list (str * nat)) : list (str * nat) := (id, i) :: map_remove id m.
Fixpoint map_find (id : str) (m : list (str * nat)) : option nat :=
  match m with [] => None | (k, i) :: r => if seqb k id then Some i else map_find id r end.

Definition set_ph (p : pub) (ph : pphase) : pub := mkPub (pb_id p) ph (pb_got p) (pb_err p) (pb_done p).
Definition verdict (p : pub) : presult := match pb_err p with None => POk | Some r => PRejected r end.

Definition publish_step (a : paction) (s : pstate) : option pstate :=
  match a with
  | BNew id => Some (mkPS (ps_pubs s ++ [mkPub id QStore false None false]) (ps_map s) (ps_cb s) (ps_lost s) (ps_log s))
  | BStep i lostcase =>
      match nth_error (ps_pubs s) i with
      | None => None
      | Some p =>
          match pb_ph p with
          | QStore => Some (mkPS (upd (ps_pubs s) i (set_ph p QWrite)) (map_store (pb_id p) i (ps_map s)) (ps_cb s) (ps_lost s) (NStart i (pb_id p) :: ps_log s))
          | QWrite => Some (mkPS (upd (ps_pubs s) i (set_ph p QWait)) (ps_map s) (ps_cb s) (ps_lost s) (ps_log s))
          | QWait =>
              if lostcase
              then if ps_lost s then Some (mkPS (upd (ps_pubs s) i (set_ph p (QDelete (verdict p)))) (ps_map s) (ps_cb s) (ps_lost s) (ps_log s)) else None
              else if pb_done p
                   then Some (mkPS (upd (ps_pubs s) i (set_ph p (QDelete (if pb_got p then verdict p else PCtx)))) (ps_map s) (ps_cb s) (ps_lost s) (ps_log s))
                   else None
          | QDelete r => Some (mkPS (upd (ps_pubs s) i (set_ph p (QEnd r))) (map_remove (pb_id p) (ps_map s)) (ps_cb s) (ps_lost s) (NReturn i r :: ps_log s))
          | QEnd _ => None
          end
      end
  | BWriteFails i =>
      match nth_error (ps_pubs s) i with
      | Some p => match pb_ph p with
                  | QWrite => Some (mkPS (upd (ps_pubs s) i (set_ph p (QDelete PWriteError))) (ps_map s) (ps_cb s) (ps_lost s) (ps_log s))
                  | _ => None
                  end
      | None => None
      end
  | BOk id ok reason =>
      match ps_cb s with
      | Some _ => None
      | None => match map_find id (ps_map s) with
                | Some i => Some (mkPS (ps_pubs s) (ps_map s) (Some (CGot i ok reason)) (ps_lost s) (NAnswer i id ok reason :: ps_log s))
                | None => Some s
                end
      end
  | BCallback =>
      match ps_cb s with
      | None => None
      | Some (CGot i ok reason) =>
          match nth_error (ps_pubs s) i with
          | Some p => Some (mkPS (upd (ps_pubs s) i (mkPub (pb_id p) (pb_ph p) true (pb_err p) (pb_done p))) (ps_map s) (Some (CErr i ok reason)) (ps_lost s) (ps_log s))
          | None => None
          end
      | Some (CErr i ok reason) =>
          match nth_error (ps_pubs s) i with
          | Some p => Some (mkPS (upd (ps_pubs s) i (mkPub (pb_id p) (pb_ph p) (pb_got p) (if ok then pb_err p else Some reason) (pb_done p))) (ps_map s) (Some (CCancel i)) (ps_lost s) (ps_log s))
          | None => None
          end
      | Some (CCancel i) =>
          match nth_error (ps_pubs s) i with
          | Some p => Some (mkPS (upd (ps_pubs s) i (mkPub (pb_id p) (pb_ph p) (pb_got p) (pb_err p) true)) (ps_map s) None (ps_lost s) (ps_log s))
          | None => None
          end
      end
  | BExpire i =>
      match nth_error (ps_pubs s) i with
      | Some p => Some (mkPS (upd (ps_pubs s) i (mkPub (pb_id p) (pb_ph p) (pb_got p) (pb_err p) true)) (ps_map s) (ps_cb s) (ps_lost s) (NExpire i :: ps_log s))
      | None => None
      end
  | BLost => Some (mkPS (ps_pubs s) (ps_map s) (ps_cb s) true (NLost :: ps_log s))
  end.
Definition publish_init : pstate := mkPS [] [] None false [].

(** ** Close, relay.go:565-590, and the end of the writer goroutine, relay.go:170-183 *)
Inductive cresult := CClosed | CAlready | CNotConnected.
Inductive cphase := XLock | XCheck | XCancel | XForget | XConn | XCall | XUnlock (r : cresult) | XEnd (r : cresult).
Inductive wphase := WRun | WNil | WRange (k n : nat) | WEnd.
(** Subscribe, relay.go:411-423: prepared (in the map), checked, fired, given up, ended. *)
Inductive vphase := VPrepared | VFiring | VFired | VGivenUp | VEnded.
Record cstate := mkCS {
  cs_closers : list cphase;
  cs_mutex : option nat;
  cs_cancel : bool;         (* r.connectionContextCancel != nil *)
  cs_done : bool;           (* the connection context has ended *)
  cs_conn : bool;           (* r.Connection != nil *)
  cs_closes : nat;          (* calls of Connection.Close *)
  cs_writer : wphase;
  cs_subs : list vphase;
  cs_panic : bool
}.
Definition close_init : cstate := mkCS [] None true false true 0 WRun [] false.

Inductive caction :=
| ZClose                    (* someone calls Close, or the reader fails *)
| ZParent                   (* the context given to NewRelay ends *)
| ZCloser (i : nat)
| ZWriter
| ZSubscribe                (* PrepareSubscription *)
| ZSub (j : nat) (lost : bool).   (* [lost] picks connectionContext.Done in Write, relay.go:325-329 *)

Definition sub_ends (v : vphase) : vphase := match v with VGivenUp => VEnded | VPrepared => VEnded | VFiring => VEnded | VFired => VEnded | VEnded => VEnded end.

Definition closer_step (i : nat) (p : cphase) (s : cstate) : option cstate :=
  let go q := upd (cs_closers s) i q in
  match p with
  | XLock => match cs_mutex s with
             | Some _ => None
             | None => Some (mkCS (go XCheck) (Some i) (cs_cancel s) (cs_done s) (cs_conn s) (cs_closes s) (cs_writer s) (cs_subs s) (cs_panic s))
             end
  | XCheck => Some (mkCS (go (if cs_cancel s then XCancel else XUnlock CAlready)) (cs_mutex s) (cs_cancel s) (cs_done s) (cs_conn s) (cs_closes s) (cs_writer s) (cs_subs s) (cs_panic s))
  | XCancel => Some (mkCS (go XForget) (cs_mutex s) (cs_cancel s) true (cs_conn s) (cs_closes s) (cs_writer s) (cs_subs s) (cs_panic s))
  | XForget => Some (mkCS (go XConn) (cs_mutex s) false (cs_done s) (cs_conn s) (cs_closes s) (cs_writer s) (cs_subs s) (cs_panic s))
  | XConn => Some (mkCS (go (if cs_conn s then XCall else XUnlock CNotConnected)) (cs_mutex s) (cs_cancel s) (cs_done s) (cs_conn s) (cs_closes s) (cs_writer s) (cs_subs s) (cs_panic s))
  | XCall => if cs_conn s
             then Some (mkCS (go (XUnlock CClosed)) (cs_mutex s) (cs_cancel s) (cs_done s) (cs_conn s) (S (cs_closes s)) (cs_writer s) (cs_subs s) (cs_panic s))
             else Some (mkCS (go XCall) (cs_mutex s) (cs_cancel s) (cs_done s) (cs_conn s) (cs_closes s) (cs_writer s) (cs_subs s) true)  (* c.conn of a nil c *)
  | XUnlock r => Some (mkCS (go (XEnd r)) None (cs_cancel s) (cs_done s) (cs_conn s) (cs_closes s) (cs_writer s) (cs_subs s) (cs_panic s))
  | XEnd _ => None
  end.

Definition set_writer (s : cstate) (w : wphase) (conn : bool) (subs : list vphase) : cstate :=
  mkCS (cs_closers s) (cs_mutex s) (cs_cancel s) (cs_done s) conn (cs_closes s) w subs (cs_panic s).
(** The writer stops when the context has ended; Range visits the entries present when it starts. *)
Definition writer_step (s : cstate) : option cstate :=
  match cs_writer s with
  | WRun => if cs_done s then Some (set_writer s WNil (cs_conn s) (cs_subs s)) else None
  | WNil => Some (set_writer s (WRange 0 (length (cs_subs s))) false (cs_subs s))
  | WRange k n => if Nat.ltb k n
                  then match nth_error (cs_subs s) k with
                       | Some v => Some (set_writer s (WRange (S k) n) (cs_conn s) (upd (cs_subs s) k (sub_ends v)))
                       | None => None
                       end
                  else Some (set_writer s WEnd (cs_conn s) (cs_subs s))
  | WEnd => None
  end.
(** Subscribe's later steps. Write hands the message to the running writer or sees that the context has ended; then Fire cancels
    the subscription. *)
Definition vsub_step (j : nat) (v : vphase) (lost : bool) (s : cstate) : option cstate :=
  match v with
  | VPrepared => Some (set_writer s (cs_writer s) (cs_conn s) (upd (cs_subs s) j (if cs_conn s then VFiring else VGivenUp)))
  | VFiring => if lost
               then if cs_done s then Some (set_writer s (cs_writer s) (cs_conn s) (upd (cs_subs s) j VEnded)) else None
               else match cs_writer s with
                    | WRun => Some (set_writer s (cs_writer s) (cs_conn s) (upd (cs_subs s) j VFired))
                    | _ => None
                    end
  | _ => None
  end.

Definition close_step (a : caction) (s : cstate) : option cstate :=
  if cs_panic s then None else
  match a with
  | ZClose => Some (mkCS (cs_closers s ++ [XLock]) (cs_mutex s) (cs_cancel s) (cs_done s) (cs_conn s) (cs_closes s) (cs_writer s) (cs_subs s) (cs_panic s))
  | ZParent => Some (mkCS (cs_closers s) (cs_mutex s) (cs_cancel s) true (cs_conn s) (cs_closes s) (cs_writer s) (cs_subs s) (cs_panic s))
  | ZCloser i => match nth_error (cs_closers s) i with Some p => closer_step i p s | None => None end
  | ZWriter => writer_step s
  | ZSubscribe => Some (set_writer s (cs_writer s) (cs_conn s) (cs_subs s ++ [VPrepared]))
  | ZSub j lost => match nth_error (cs_subs s) j with Some v => vsub_step j v lost s | None => None end
  end.
