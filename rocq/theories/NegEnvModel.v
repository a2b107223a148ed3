(** Negentropy messages: /repo/nip77/envelopes.go. *)
From Verif Require Import Base JsonSpec EventModel TagsModel FilterModel JLexModel EnvelopeModel.
Local Open Scope nat_scope.

(** envelopes.go:52-56, 94-97, 134-136, 162-165 *)
Inductive neg_env :=
| NOpen (sub : str) (f : nfilter) (msg : str)
| NMsg (sub msg : str)
| NClose (sub : str)
| NErr (sub reason : str).

(** The MarshalJSON methods: envelopes.go:76-92, 118-128, 154-160, 188-196. *)
Definition neg_marshal (m : neg_env) : str :=
  match m with
  | NOpen sub f msg =>
      B "[""NEG-OPEN"",""" ++ sub ++ B """," ++ encode_filter f ++ B ",""" ++ msg ++ B """]"
  | NMsg sub msg => B "[""NEG-MSG"",""" ++ sub ++ B """,""" ++ msg ++ B """]"
  | NClose sub => B "[""NEG-CLOSE"",""" ++ sub ++ B """]"
  | NErr sub reason => B "[""NEG-ERROR"",""" ++ sub ++ B """,""" ++ reason ++ B """]"
  end.

(** The FromJSON methods (envelopes.go:64-74, 106-116, 145-152, 177-186) on the label that selected them; None is an
    error, which ParseNegMessage turns into nil. *)
Definition neg_from_json (label data : str) : option neg_env :=
  let arr := g_array data in
  if seqb label (B "NEG-MSG") then
    match arr with
    | _ :: a :: b :: _ => Some (NMsg (g_str a) (g_str b))
    | _ => None
    end
  else if seqb label (B "NEG-OPEN") then
    match arr with
    | [_; a; f; m] => match decode_filter (g_raw f) with Ok f' => Some (NOpen (g_str a) f' (g_str m)) | _ => None end
    | _ => None
    end
  else if seqb label (B "NEG-ERR") then
    match arr with
    | _ :: a :: b :: _ => Some (NErr (g_str a) (g_str b))
    | _ => None
    end
  else if seqb label (B "NEG-CLOSE") then
    match arr with
    | _ :: a :: _ => Some (NClose (g_str a))
    | _ => None
    end
  else None.

(** envelopes.go:14-42 ParseNegMessage. The slice [2 : firstComma-1] panics when the comma comes too early. *)
Definition parse_neg (message : str) : outcome (option neg_env) :=
  match index message (B ",") with
  | None => Ok None
  | Some first_comma =>
      if first_comma <? 3 then Panic
      else Ok (neg_from_json (firstn (first_comma - 3) (skipn 2 message)) message)
  end.
