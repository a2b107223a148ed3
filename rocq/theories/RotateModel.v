(** Rotating lists of relays, searching for people, limits of batched queries: /repo/sdk/system.go, search.go, utils.go. *)
From Verif Require Import Base Machine FilterModel EventModel ProfileModel.
Import ListNotations.
Local Open Scope Z_scope.

(** ** RelayStream *)
(** int is 64 bits wide *)
Definition wrap_int (z : Z) : Z := (z + 9223372036854775808) mod 18446744073709551616 - 9223372036854775808.
(** rs.URLs[serial % len(rs.URLs)], system.go:76: Go's remainder has the sign of the dividend; a zero divisor and a negative index panic *)
Definition url_at (urls : list str) (serial : Z) : outcome str :=
  match urls with
  | [] => Panic
  | _ => let i := Z.rem serial (Z.of_nat (length urls)) in if i <? 0 then Panic else match nth_error urls (Z.to_nat i) with Some u => Ok u | None => Panic end
  end.
(** Next, system.go:74-77: the relay and the new serial *)
Definition next_url (urls : list str) (serial : Z) : outcome str * Z := let s := wrap_int (serial + 1) in (url_at urls s, s).
(** Calls one after the other *)
Fixpoint next_urls (n : nat) (urls : list str) (serial : Z) : list (outcome str) :=
  match n with O => [] | S k => let '(u, s) := next_url urls serial in u :: next_urls k urls s end.

(** Calls at the same time: rs.serial++ reads and writes, the index reads again; nothing is locked. *)
Inductive nphase := NStart | NRead (v : Z) | NWritten | NDone (r : outcome str).
Record nstate := mkNS { ns_serial : Z; ns_calls : list nphase }.
Inductive naction := XCall | XGo (i : nat).
Definition next_step (urls : list str) (a : naction) (s : nstate) : option nstate :=
  match a with
  | XCall => Some (mkNS (ns_serial s) (ns_calls s ++ [NStart]))
  | XGo i => match nth_error (ns_calls s) i with
      | Some NStart => Some (mkNS (ns_serial s) (upd (ns_calls s) i (NRead (ns_serial s))))
      | Some (NRead v) => Some (mkNS (wrap_int (v + 1)) (upd (ns_calls s) i NWritten))
      | Some NWritten => Some (mkNS (ns_serial s) (upd (ns_calls s) i (NDone (url_at urls (ns_serial s)))))
      | _ => None
      end
  end.

(** ** SearchUsers, search.go:9-24 *)
Definition search_filter (query : str) : nfilter := mkFilter None None None [] None None 10 query false.
Section Search.
Variable unmarshal : str -> fields * bool.
(** [fetched]: what FetchMany gives for that filter from the search relays *)
Definition search_users (fetched : nfilter -> list event) (query : str) : list profile :=
  map (fun e => fst (parse_metadata unmarshal e)) (fetched (search_filter query)).
End Search.

(** ** PerQueryLimitInBatch, utils.go:33-46 *)
(** math.Ceil(t / n^0.4) for 0 < t and 0 < n: the least k with t <= k * n^(2/5), that is t^5 <= k^5 * n^2.
    Simplification: the exact value, where the code rounds to float64 several times. *)
Fixpoint ceil_from (fuel : nat) (k t n : Z) : Z := match fuel with O => k | S f => if t ^ 5 <=? k ^ 5 * n ^ 2 then k else ceil_from f (k + 1) t n end.
Definition ceil_div_pow (t n : Z) : Z := ceil_from (Z.to_nat t) 0 t n.
Definition per_query_limit (total queries : Z) : Z :=
  if (queries =? 1) || (wrap_int (total * queries) <? 50) then total else Z.max 4 (ceil_div_pow total queries).
