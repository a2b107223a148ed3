(** The message parser built with the tag "sonic": /repo/envelopes_sonic.go.
    The parser walks the JSON text with a visitor. The lists it builds (tags, strings, kinds) live in large arrays that
    the parser object owns and hands out piece by piece. The visitor is written once, over an abstract memory, and used
    twice: with plain lists, and with arrays and slices as Go has them. *)
From Verif Require Import Base JsonSpec EventModel TagsModel FilterModel JLexModel EnvelopeModel.
Local Open Scope nat_scope.

(** envelopes_sonic.go:14-51 *)
Inductive spos :=
| PEnvelope | PEvent | PReq | POk | PEose | PCount | PAuth | PClose | PClosed | PNotice
| PFilterObject | PEventObject | PCountObject
| PSince | PLimit | PUntil | PIds | PAuthors | PKinds | PSearch | PAFilterTag
| PId | PCreatedAt | PKind | PContent | PPubkey | PSig | PTags | PTagsList | PAnEventTag.

(** nostr.Event and nostr.Filter (event.go:10-18, filter.go:12-24) with slices as the memory gives them. None is nil. *)
Record gev (ST : Type) := mkGev { g_id : str; g_pk : str; g_ts : Z; g_kind : Z; g_tags : option ST; g_content : str; g_sig : str }.
Arguments mkGev {ST}. Arguments g_id {ST}. Arguments g_pk {ST}. Arguments g_ts {ST}. Arguments g_kind {ST}.
Arguments g_tags {ST}. Arguments g_content {ST}. Arguments g_sig {ST}.
Record gflt (SS SI : Type) := mkGf { gf_ids : option SS; gf_kinds : option SI; gf_authors : option SS; gf_tags : list (str * option SS);
  gf_since : option Z; gf_until : option Z; gf_limit : Z; gf_search : str; gf_limit_zero : bool }.
Arguments mkGf {SS SI}. Arguments gf_ids {SS SI}. Arguments gf_kinds {SS SI}. Arguments gf_authors {SS SI}. Arguments gf_tags {SS SI}.
Arguments gf_since {SS SI}. Arguments gf_until {SS SI}. Arguments gf_limit {SS SI}. Arguments gf_search {SS SI}. Arguments gf_limit_zero {SS SI}.

(** The nine envelope pointers of the visitor (lines 119-127). Only the label sets one of them (EVENT, REQ, OK, COUNT,
    AUTH, CLOSED at once; EOSE, CLOSE, NOTICE when their string comes), so they are one field here. *)
Inductive genv (SS ST SI : Type) :=
| XNone
| XEvent (sub : option str) (e : gev ST)
| XReq (sub : str) (fs : list (gflt SS SI))
| XOk (id : str) (ok : bool) (reason : str)
| XEose (p : option str)
| XCount (sub : str) (f : gflt SS SI) (count : option Z) (hll : option str)
| XAuth (challenge : option str) (e : gev ST)
| XClose (p : option str)
| XClosed (sub reason : str)
| XNotice (p : option str).
Arguments XNone {SS ST SI}. Arguments XEvent {SS ST SI}. Arguments XReq {SS ST SI}. Arguments XOk {SS ST SI}. Arguments XEose {SS ST SI}.
Arguments XCount {SS ST SI}. Arguments XAuth {SS ST SI}. Arguments XClose {SS ST SI}. Arguments XClosed {SS ST SI}. Arguments XNotice {SS ST SI}.

(** mainEnvelope (line 139): unset, a pointer to the struct the visitor still fills, or a pointer to a string the
    visitor will not touch again. *)
Inductive gmain (SS ST SI : Type) := MNone | MRef | MCopy (x : genv SS ST SI).
Arguments MNone {SS ST SI}. Arguments MRef {SS ST SI}. Arguments MCopy {SS ST SI}.

Inductive verr := UnknownLabel | OtherError.

Section Visitor.
Variables M SS ST SI : Type.
(** smp.reusableXArray; append; doneWithXSlice *)
Variables (free_s : M -> SS) (app_s : option SS -> str -> M -> SS * M) (done_s : option SS -> M -> M).
Variables (free_t : M -> ST) (app_t : option ST -> SS -> M -> ST * M) (done_t : option ST -> M -> M).
Variables (free_i : M -> SI) (app_i : option SI -> Z -> M -> SI * M) (done_i : option SI -> M -> M).

Definition gev0 : gev ST := mkGev [] [] 0%Z 0%Z None [] [].
Definition gflt0 : gflt SS SI := mkGf None None None [] None None 0%Z [] false.

(** envelopes_sonic.go:118-140 *)
Record sv := mkSv {
  v_env : genv SS ST SI; v_pos : spos;
  v_ev : option (gev ST); v_tag : option SS;
  v_flt : option (gflt SS SI); v_ftag : option SS; v_fname : str;
  v_mem : M; v_main : gmain SS ST SI }.

Inductive vout := VOk (s : sv) | VStop (e : verr) (s : sv) | VPanic.

Definition go (p : spos) (s : sv) : sv := mkSv (v_env s) p (v_ev s) (v_tag s) (v_flt s) (v_ftag s) (v_fname s) (v_mem s) (v_main s).
Definition set_env (x : genv SS ST SI) (s : sv) : sv := mkSv x (v_pos s) (v_ev s) (v_tag s) (v_flt s) (v_ftag s) (v_fname s) (v_mem s) (v_main s).
Definition set_ev (e : option (gev ST)) (s : sv) : sv := mkSv (v_env s) (v_pos s) e (v_tag s) (v_flt s) (v_ftag s) (v_fname s) (v_mem s) (v_main s).
Definition set_tag (t : option SS) (s : sv) : sv := mkSv (v_env s) (v_pos s) (v_ev s) t (v_flt s) (v_ftag s) (v_fname s) (v_mem s) (v_main s).
Definition set_flt (f : option (gflt SS SI)) (s : sv) : sv := mkSv (v_env s) (v_pos s) (v_ev s) (v_tag s) f (v_ftag s) (v_fname s) (v_mem s) (v_main s).
Definition set_ftag (t : option SS) (s : sv) : sv := mkSv (v_env s) (v_pos s) (v_ev s) (v_tag s) (v_flt s) t (v_fname s) (v_mem s) (v_main s).
Definition set_fname (n : str) (s : sv) : sv := mkSv (v_env s) (v_pos s) (v_ev s) (v_tag s) (v_flt s) (v_ftag s) n (v_mem s) (v_main s).
Definition set_mem (m : M) (s : sv) : sv := mkSv (v_env s) (v_pos s) (v_ev s) (v_tag s) (v_flt s) (v_ftag s) (v_fname s) m (v_main s).
Definition set_main (x : gmain SS ST SI) (s : sv) : sv := mkSv (v_env s) (v_pos s) (v_ev s) (v_tag s) (v_flt s) (v_ftag s) (v_fname s) (v_mem s) x.

Definition fail (s : sv) : vout := VStop OtherError s.
(** sv.currentEvent.X = ..., sv.currentFilter.X = ...: a nil pointer panics *)
Definition on_ev (s : sv) (k : gev ST -> vout) : vout := match v_ev s with Some e => k e | None => VPanic end.
Definition on_flt (s : sv) (k : gflt SS SI -> vout) : vout := match v_flt s with Some f => k f | None => VPanic end.
Definition ge_tags (t : option ST) (e : gev ST) := mkGev (g_id e) (g_pk e) (g_ts e) (g_kind e) t (g_content e) (g_sig e).
Definition fl_ids (x : option SS) (f : gflt SS SI) := mkGf x (gf_kinds f) (gf_authors f) (gf_tags f) (gf_since f) (gf_until f) (gf_limit f) (gf_search f) (gf_limit_zero f).
Definition fl_kinds (x : option SI) (f : gflt SS SI) := mkGf (gf_ids f) x (gf_authors f) (gf_tags f) (gf_since f) (gf_until f) (gf_limit f) (gf_search f) (gf_limit_zero f).
Definition fl_authors (x : option SS) (f : gflt SS SI) := mkGf (gf_ids f) (gf_kinds f) x (gf_tags f) (gf_since f) (gf_until f) (gf_limit f) (gf_search f) (gf_limit_zero f).
Definition fl_tags (x : list (str * option SS)) (f : gflt SS SI) := mkGf (gf_ids f) (gf_kinds f) (gf_authors f) x (gf_since f) (gf_until f) (gf_limit f) (gf_search f) (gf_limit_zero f).

(** envelopes_sonic.go:142-157 *)
Definition on_array_begin (s : sv) : vout :=
  match v_pos s with
  | PTags => on_ev s (fun e => VOk (set_ev (Some (ge_tags (Some (free_t (v_mem s))) e)) (go PTagsList s)))
  | PTagsList => VOk (set_tag (Some (free_s (v_mem s))) (go PAnEventTag s))
  | _ => VOk s
  end.

(** envelopes_sonic.go:159-212. Simplification: the array of filters is a plain list; doneWithFilterSlice is left out. *)
Definition on_array_end (s : sv) : vout :=
  match v_pos s with
  | PEvent | PReq | POk | PCount | PAuth | PClosed => VOk (set_main MRef s)
  | PEose | PClose | PNotice => VOk (set_main (MCopy (v_env s)) s)
  | PIds => on_flt s (fun f => VOk (set_mem (done_s (gf_ids f) (v_mem s)) (go PFilterObject s)))
  | PAuthors => on_flt s (fun f => VOk (set_mem (done_s (gf_authors f) (v_mem s)) (go PFilterObject s)))
  | PKinds => on_flt s (fun f => VOk (set_mem (done_i (gf_kinds f) (v_mem s)) (go PFilterObject s)))
  | PAFilterTag => on_flt s (fun f =>
      VOk (set_mem (done_s (v_ftag s) (v_mem s)) (go PFilterObject (set_flt (Some (fl_tags (map_set (v_fname s) (v_ftag s) (gf_tags f)) f)) s))))
  | PAnEventTag => on_ev s (fun e =>
      match v_tag s with
      | Some t =>
        let '(ts, m) := app_t (g_tags e) t (v_mem s) in
        VOk (set_mem (done_s (v_tag s) m) (go PTagsList (set_ev (Some (ge_tags (Some ts) e)) s)))
      | None => VPanic (* never: the position is reached only by on_array_begin, which sets it *)
      end)
  | PTags | PTagsList => on_ev s (fun e => VOk (set_mem (done_t (g_tags e) (v_mem s)) (go PEventObject s)))
  | _ => fail s
  end.

(** envelopes_sonic.go:214-236 *)
Definition on_object_begin (s : sv) : vout :=
  match v_pos s with
  | PEvent | PAuth => VOk (set_ev (Some gev0) (go PEventObject s))
  | PReq | PCount => VOk (set_flt (Some gflt0) (go PFilterObject s))
  | _ => fail s
  end.

(** envelopes_sonic.go:238-302 *)
Definition on_object_key (k : str) (s : sv) : vout :=
  match v_pos s with
  | PEventObject =>
    if seqb k (B "id") then VOk (go PId s)
    else if seqb k (B "sig") then VOk (go PSig s)
    else if seqb k (B "pubkey") then VOk (go PPubkey s)
    else if seqb k (B "content") then VOk (go PContent s)
    else if seqb k (B "created_at") then VOk (go PCreatedAt s)
    else if seqb k (B "kind") then VOk (go PKind s)
    else if seqb k (B "tags") then VOk (go PTags s)
    else fail s
  | PFilterObject =>
    if seqb k (B "limit") then VOk (go PLimit s)
    else if seqb k (B "since") then VOk (go PSince s)
    else if seqb k (B "until") then VOk (go PUntil s)
    else if seqb k (B "ids") then on_flt s (fun f => VOk (set_flt (Some (fl_ids (Some (free_s (v_mem s))) f)) (go PIds s)))
    else if seqb k (B "authors") then on_flt s (fun f => VOk (set_flt (Some (fl_authors (Some (free_s (v_mem s))) f)) (go PAuthors s)))
    else if seqb k (B "kinds") then on_flt s (fun f => VOk (set_flt (Some (fl_kinds (Some (free_i (v_mem s))) f)) (go PKinds s)))
    else if seqb k (B "search") then VOk (go PSearch s)
    else if seqb k (B "count") || seqb k (B "hll") then VOk (go PCountObject s)
    else match k with
         | c :: (_ :: _) as n => if ceqb c "#"%char then on_flt s (fun _ => VOk (set_fname n (set_ftag (Some (free_s (v_mem s))) (go PAFilterTag s)))) else fail s
         | _ => fail s
         end
  | PCountObject => VOk s
  | _ => fail s
  end.

(** envelopes_sonic.go:304-333 *)
Definition on_object_end (s : sv) : vout :=
  match v_pos s with
  | PEventObject => on_ev s (fun e =>
      match v_env s with
      | XEvent sub _ => VOk (set_ev None (go PEvent (set_env (XEvent sub e) s)))
      | XAuth c _ => VOk (set_ev None (go PAuth (set_env (XAuth c e) s)))
      | _ => VPanic
      end)
  | PFilterObject => on_flt s (fun f =>
      match v_env s with
      | XReq sub fs => VOk (set_flt None (go PReq (set_env (XReq sub (fs ++ [f])) s)))
      | XCount sub _ n h => VOk (set_flt None (go PCount (set_env (XCount sub f n h) s)))
      | _ => VPanic
      end)
  | PCountObject => VOk (go PCount s)
  | _ => fail s
  end.

(** hex.DecodeString with its error dropped (line 426): the bytes read before the first bad pair *)
Fixpoint hex_bytes (s : str) : str :=
  match s with
  | a :: b :: r => match hex_val a, hex_val b with Some x, Some y => byte_of (16 * x + y) :: hex_bytes r | _, _ => [] end
  | _ => []
  end.

(** envelopes_sonic.go:335-432 *)
Definition on_string (v : str) (s : sv) : vout :=
  match v_pos s with
  | PEnvelope =>
    if seqb v (B "EVENT") then VOk (go PEvent (set_env (XEvent None gev0) s))
    else if seqb v (B "REQ") then VOk (go PReq (set_env (XReq [] []) s))
    else if seqb v (B "OK") then VOk (go POk (set_env (XOk [] false []) s))
    else if seqb v (B "EOSE") then VOk (go PEose (set_env (XEose None) s))
    else if seqb v (B "COUNT") then VOk (go PCount (set_env (XCount [] gflt0 None None) s))
    else if seqb v (B "AUTH") then VOk (go PAuth (set_env (XAuth None gev0) s))
    else if seqb v (B "CLOSE") then VOk (go PClose (set_env (XClose None) s))
    else if seqb v (B "CLOSED") then VOk (go PClosed (set_env (XClosed [] []) s))
    else if seqb v (B "NOTICE") then VOk (go PNotice (set_env (XNotice None) s))
    else VStop UnknownLabel s
  | PEvent => match v_env s with XEvent _ e => VOk (set_env (XEvent (Some v) e) s) | _ => VPanic end
  | PReq => match v_env s with XReq _ fs => VOk (set_env (XReq v fs) s) | _ => VPanic end
  | POk => match v_env s with
           | XOk id ok r => VOk (set_env (if seqb id [] then XOk v ok r else XOk id ok v) s)
           | _ => VPanic
           end
  | PEose => VOk (set_env (XEose (Some v)) s)
  | PCount => match v_env s with XCount _ f n h => VOk (set_env (XCount v f n h) s) | _ => VPanic end
  | PAuth => match v_env s with XAuth _ e => VOk (set_env (XAuth (Some v) e) s) | _ => VPanic end
  | PClose => VOk (set_env (XClose (Some v)) s)
  | PClosed => match v_env s with
               | XClosed sub r => VOk (set_env (if seqb sub [] then XClosed v r else XClosed sub v) s)
               | _ => VPanic
               end
  | PNotice => VOk (set_env (XNotice (Some v)) s)
  | PIds => on_flt s (fun f => let '(x, m) := app_s (gf_ids f) v (v_mem s) in VOk (set_mem m (set_flt (Some (fl_ids (Some x) f)) s)))
  | PAuthors => on_flt s (fun f => let '(x, m) := app_s (gf_authors f) v (v_mem s) in VOk (set_mem m (set_flt (Some (fl_authors (Some x) f)) s)))
  | PSearch => on_flt s (fun f =>
      VOk (go PFilterObject (set_flt (Some (mkGf (gf_ids f) (gf_kinds f) (gf_authors f) (gf_tags f) (gf_since f) (gf_until f) (gf_limit f) v (gf_limit_zero f))) s)))
  | PAFilterTag => let '(x, m) := app_s (v_ftag s) v (v_mem s) in VOk (set_mem m (set_ftag (Some x) s))
  | PId => on_ev s (fun e => VOk (go PEventObject (set_ev (Some (mkGev v (g_pk e) (g_ts e) (g_kind e) (g_tags e) (g_content e) (g_sig e))) s)))
  | PContent => on_ev s (fun e => VOk (go PEventObject (set_ev (Some (mkGev (g_id e) (g_pk e) (g_ts e) (g_kind e) (g_tags e) v (g_sig e))) s)))
  | PPubkey => on_ev s (fun e => VOk (go PEventObject (set_ev (Some (mkGev (g_id e) v (g_ts e) (g_kind e) (g_tags e) (g_content e) (g_sig e))) s)))
  | PSig => on_ev s (fun e => VOk (go PEventObject (set_ev (Some (mkGev (g_id e) (g_pk e) (g_ts e) (g_kind e) (g_tags e) (g_content e) v)) s)))
  | PAnEventTag => let '(x, m) := app_s (v_tag s) v (v_mem s) in VOk (set_mem m (set_tag (Some x) s))
  | PCountObject => match v_env s with XCount sub f n _ => VOk (set_env (XCount sub f n (Some (hex_bytes v))) s) | _ => VPanic end
  | _ => fail s
  end.

(** envelopes_sonic.go:434-465 *)
Definition on_int (v : Z) (s : sv) : vout :=
  match v_pos s with
  | PCreatedAt => on_ev s (fun e => VOk (go PEventObject (set_ev (Some (mkGev (g_id e) (g_pk e) v (g_kind e) (g_tags e) (g_content e) (g_sig e))) s)))
  | PKind => on_ev s (fun e => VOk (go PEventObject (set_ev (Some (mkGev (g_id e) (g_pk e) (g_ts e) v (g_tags e) (g_content e) (g_sig e))) s)))
  | PLimit => on_flt s (fun f =>
      VOk (go PFilterObject (set_flt (Some (mkGf (gf_ids f) (gf_kinds f) (gf_authors f) (gf_tags f) (gf_since f) (gf_until f) v (gf_search f) (Z.eqb v 0))) s)))
  | PSince => on_flt s (fun f =>
      VOk (go PFilterObject (set_flt (Some (mkGf (gf_ids f) (gf_kinds f) (gf_authors f) (gf_tags f) (Some v) (gf_until f) (gf_limit f) (gf_search f) (gf_limit_zero f))) s)))
  | PUntil => on_flt s (fun f =>
      VOk (go PFilterObject (set_flt (Some (mkGf (gf_ids f) (gf_kinds f) (gf_authors f) (gf_tags f) (gf_since f) (Some v) (gf_limit f) (gf_search f) (gf_limit_zero f))) s)))
  | PKinds => on_flt s (fun f => let '(x, m) := app_i (gf_kinds f) v (v_mem s) in VOk (set_mem m (set_flt (Some (fl_kinds (Some x) f)) s)))
  | PCountObject => match v_env s with XCount sub f _ h => VOk (set_env (XCount sub f (Some v) h) s) | _ => VPanic end
  | _ => VOk s
  end.

(** envelopes_sonic.go:467-476 *)
Definition on_bool (v : bool) (s : sv) : vout :=
  match v_pos s with
  | POk => match v_env s with XOk id _ r => VOk (set_env (XOk id v r) s) | _ => VPanic end
  | _ => fail s
  end.

Definition vbind (x : vout) (k : sv -> vout) : vout := match x with VOk s => k s | y => y end.

(** ast.Preorder (sonic, third party): the callbacks in the order of the text, until one returns an error. A number
    without fraction or exponent that fits in 64 bits is an OnInt64, any other an OnFloat64 (an error, lines 482-484).
    OnNull is an error (lines 478-480). *)
Fixpoint visit (j : json) (s : sv) {struct j} : vout :=
  match j with
  | JNull => fail s
  | JBool b => on_bool b s
  | JNum t => match parse_int t with Some z => on_int z s | None => fail s end
  | JStr v => on_string v s
  | JArr l =>
    vbind (on_array_begin s) (fun s1 =>
    vbind ((fix all (l : list json) (s : sv) {struct l} : vout :=
              match l with [] => VOk s | x :: l' => vbind (visit x s) (all l') end) l s1) on_array_end)
  | JObj l =>
    vbind (on_object_begin s) (fun s1 =>
    vbind ((fix all (l : list (str * json)) (s : sv) {struct l} : vout :=
              match l with [] => VOk s | (k, x) :: l' => vbind (on_object_key k s) (fun s2 => vbind (visit x s2) (all l')) end) l s1) on_object_end)
  end.

Definition start (m : M) : sv := mkSv XNone PEnvelope None None None None [] m MNone.

(** What ParseMessage returns, read through the pointer it returns (lines 557-564) *)
Definition main_of (s : sv) : option (genv SS ST SI) :=
  match v_main s with MNone => None | MRef => Some (v_env s) | MCopy x => Some x end.
Definition run (j : json) (m : M) : outcome (option (genv SS ST SI) * option verr * M) :=
  match visit j (start m) with
  | VOk s => Ok (main_of s, None, v_mem s)
  | VStop e s => Ok (main_of s, Some e, v_mem s)
  | VPanic => Panic
  end.
End Visitor.

(** ** An envelope as the caller sees it: a typed nil pointer, or a message *)
Inductive senv := SNil (label : str) | SMsg (m : envelope).

Section View.
Variables (SS ST SI : Type) (rs : SS -> list str) (rt : ST -> list (list str)) (ri : SI -> list Z).
Definition opt_list {A C} (r : A -> list C) (o : option A) : list C := match o with Some x => r x | None => [] end.
Definition view_ev (e : gev ST) : event :=
  mkEvent (g_id e) (g_pk e) (g_ts e) (g_kind e) (opt_list rt (g_tags e)) (g_content e) (g_sig e).
Definition view_flt (f : gflt SS SI) : nfilter :=
  mkFilter (option_map rs (gf_ids f)) (option_map ri (gf_kinds f)) (option_map rs (gf_authors f))
    (map (fun kv => (fst kv, option_map rs (snd kv))) (gf_tags f)) (gf_since f) (gf_until f) (gf_limit f) (gf_search f) (gf_limit_zero f).
Definition view_env (x : genv SS ST SI) : senv :=
  match x with
  | XNone => SNil []
  | XEvent sub e => SMsg (EEvent sub (view_ev e))
  | XReq sub fs => SMsg (EReq sub (map view_flt fs))
  | XOk id ok r => SMsg (EOk id ok r)
  | XEose (Some s) => SMsg (EEose s)
  | XEose None => SNil (B "EOSE")
  | XCount sub f n h => SMsg (ECount sub (view_flt f) n h)
  | XAuth c e => SMsg (EAuth c (view_ev e))
  | XClose (Some s) => SMsg (EClose s)
  | XClose None => SNil (B "CLOSE")
  | XClosed sub r => SMsg (EClosed sub r)
  | XNotice (Some s) => SMsg (ENotice s)
  | XNotice None => SNil (B "NOTICE")
  end.
End View.

(** ** With plain lists: no memory at all *)
Definition lapp {A} (o : option (list A)) (v : A) (m : unit) : list A * unit := (opt_list id o ++ [v], m).
Definition ldone {A} (o : option (list A)) (m : unit) : unit := m.
Definition sonic_json (j : json) : outcome (option senv * option verr) :=
  match run unit (list str) (list (list str)) (list Z) (fun _ => []) lapp ldone (fun _ => []) lapp ldone (fun _ => []) lapp ldone j tt with
  | Ok (x, e, _) => Ok (option_map (view_env _ _ _ id id id) x, e)
  | Err => Err
  | Panic => Panic
  end.
(** Simplification: a text that is not JSON gives no envelope (sonic calls back before it finds the fault). *)
Definition sonic_parse (msg : str) : outcome (option senv * option verr) :=
  match json_parse msg with Some j => sonic_json j | None => Ok (None, Some OtherError) end.

(** ** With arrays and slices. A slice is a window of a buffer; its capacity reaches to the buffer's end. *)
Record slice := mkSl { sl_buf : nat; sl_off : nat; sl_len : nat }.
Record arena (T : Type) := mkAr { ar_cell : nat -> nat -> option T; ar_size : nat -> nat; ar_next : nat; ar_free : slice }.
Arguments mkAr {T}. Arguments ar_cell {T}. Arguments ar_size {T}. Arguments ar_next {T}. Arguments ar_free {T}.

Section Arena.
Context {T : Type}.
Definition a_cap (a : arena T) (s : slice) : nat := ar_size a (sl_buf s) - sl_off s.
(** make([]T, 0, n) *)
Definition a_make (n : nat) (a : arena T) : slice * arena T :=
  (mkSl (ar_next a) 0 0, mkAr (ar_cell a) (fun b => if Nat.eqb b (ar_next a) then n else ar_size a b) (S (ar_next a)) (ar_free a)).
Definition a_write (b i : nat) (v : T) (a : arena T) : arena T :=
  mkAr (fun b' i' => if Nat.eqb b' b && Nat.eqb i' i then Some v else ar_cell a b' i') (ar_size a) (ar_next a) (ar_free a).
(** Copying on growth: the cells of s to the start of buffer b *)
Definition a_copy (b : nat) (s : slice) (a : arena T) : arena T :=
  mkAr (fun b' i' => if Nat.eqb b' b && Nat.ltb i' (sl_len s) then ar_cell a (sl_buf s) (sl_off s + i') else ar_cell a b' i')
       (ar_size a) (ar_next a) (ar_free a).
(** append(s, v): in place while the capacity lasts, else into a new, larger buffer *)
Definition a_app (o : option slice) (v : T) (a : arena T) : slice * arena T :=
  match o with
  | None => let '(s, a1) := a_make 1 a in (mkSl (sl_buf s) 0 1, a_write (sl_buf s) 0 v a1)
  | Some s =>
    if Nat.ltb (sl_len s) (a_cap a s) then (mkSl (sl_buf s) (sl_off s) (S (sl_len s)), a_write (sl_buf s) (sl_off s + sl_len s) v a)
    else let '(n, a1) := a_make (2 * a_cap a s + 1) a in
         (mkSl (sl_buf n) 0 (S (sl_len s)), a_write (sl_buf n) (sl_len s) v (a_copy (sl_buf n) s a1))
  end.
Definition a_set_free (s : slice) (a : arena T) : arena T := mkAr (ar_cell a) (ar_size a) (ar_next a) s.
(** envelopes_sonic.go:506-548: doneWithXSlice, with its threshold and the size of a new array *)
Definition a_done (least full : nat) (o : option slice) (a : arena T) : arena T :=
  let a1 := match o with
            | Some s => if Nat.eqb (sl_buf s) (sl_buf (ar_free a)) && Nat.eqb (sl_off s) (sl_off (ar_free a))
                        then a_set_free (mkSl (sl_buf s) (sl_off s + sl_len s) 0) a else a
            | None => a
            end in
  if Nat.ltb (a_cap a1 (ar_free a1)) least then let '(s, a2) := a_make full a1 in a_set_free s a2 else a1.
(** envelopes_sonic.go:495-502 *)
Definition a_new (full : nat) : arena T := mkAr (fun _ _ => None) (fun _ => full) 1 (mkSl 0 0 0).
(** The elements of a slice. A cell that was never written holds Go's zero value. *)
Definition a_read (d : T) (a : arena T) (s : slice) : list T :=
  map (fun i => match ar_cell a (sl_buf s) (sl_off s + i) with Some v => v | None => d end) (seq 0 (sl_len s)).
End Arena.

(** envelopes_sonic.go:486-491 together with the heap. A Tag is a slice of strings. *)
Record smem := mkMem { m_str : arena str; m_tag : arena slice; m_int : arena Z }.
Definition ten_thousand : nat := 100 * 100.
Definition new_parser : smem := mkMem (a_new ten_thousand) (a_new ten_thousand) (a_new ten_thousand).

Definition ms_app (o : option slice) (v : str) (m : smem) : slice * smem :=
  let '(s, a) := a_app o v (m_str m) in (s, mkMem a (m_tag m) (m_int m)).
Definition ms_done (o : option slice) (m : smem) : smem := mkMem (a_done 15 ten_thousand o (m_str m)) (m_tag m) (m_int m).
Definition mt_app (o : option slice) (v : slice) (m : smem) : slice * smem :=
  let '(s, a) := a_app o v (m_tag m) in (s, mkMem (m_str m) a (m_int m)).
Definition mt_done (o : option slice) (m : smem) : smem := mkMem (m_str m) (a_done 7 ten_thousand o (m_tag m)) (m_int m).
Definition mi_app (o : option slice) (v : Z) (m : smem) : slice * smem :=
  let '(s, a) := a_app o v (m_int m) in (s, mkMem (m_str m) (m_tag m) a).
Definition mi_done (o : option slice) (m : smem) : smem := mkMem (m_str m) (m_tag m) (a_done 8 ten_thousand o (m_int m)).

Definition henv := genv slice slice slice.
Definition heap_run (j : json) (m : smem) : outcome (option henv * option verr * smem) :=
  run smem slice slice slice
    (fun m => ar_free (m_str m)) ms_app ms_done
    (fun m => ar_free (m_tag m)) mt_app mt_done
    (fun m => ar_free (m_int m)) mi_app mi_done j m.

Definition nil_slice : slice := mkSl 0 0 0.
Definition read_strs (m : smem) (s : slice) : list str := a_read [] (m_str m) s.
Definition read_tags (m : smem) (s : slice) : list (list str) := map (read_strs m) (a_read nil_slice (m_tag m) s).
Definition read_ints (m : smem) (s : slice) : list Z := a_read 0%Z (m_int m) s.
(** The envelope behind a returned pointer, as memory m has it *)
Definition look (m : smem) (x : henv) : senv := view_env _ _ _ (read_strs m) (read_tags m) (read_ints m) x.

(** The three positions the parser object holds; the buffers themselves are the heap's *)
Definition restore (p m : smem) : smem :=
  mkMem (a_set_free (ar_free (m_str p)) (m_str m)) (a_set_free (ar_free (m_tag p)) (m_tag m)) (a_set_free (ar_free (m_int p)) (m_int m)).
(** envelopes_sonic.go:557-564: ParseMessage has a value receiver, and the visitor moves the positions of the copy. The
    caller's parser is left where it was. *)
Definition parse_call (j : json) (m : smem) : outcome (option henv * option verr * smem) :=
  match heap_run j m with
  | Ok (x, e, m') => Ok (x, e, restore m m')
  | Err => Err
  | Panic => Panic
  end.
