(** The sonic message parser: what it makes of well-formed messages, and why the shared arrays are safe within a message. *)
From Verif Require Import Base JsonSpec EventModel EventProofs TagsModel FilterModel FilterProofs JLexModel JLexProofs
  JsonEventProofs JsonFilterProofs EnvelopeModel EnvelopeProofs SonicModel.
Local Open Scope nat_scope.

(** ** The walk, one element at a time *)
Section Walk.
Variables M SS ST SI : Type.
Variables (free_s : M -> SS) (app_s : option SS -> str -> M -> SS * M) (done_s : option SS -> M -> M).
Variables (free_t : M -> ST) (app_t : option ST -> SS -> M -> ST * M) (done_t : option ST -> M -> M).
Variables (free_i : M -> SI) (app_i : option SI -> Z -> M -> SI * M) (done_i : option SI -> M -> M).
Let V := visit M SS ST SI free_s app_s done_s free_t app_t done_t free_i app_i done_i.
Fixpoint visit_all (l : list json) (s : sv M SS ST SI) : vout M SS ST SI :=
  match l with [] => VOk _ _ _ _ s | x :: l' => vbind _ _ _ _ (V x s) (visit_all l') end.
Fixpoint visit_members (l : list (str * json)) (s : sv M SS ST SI) : vout M SS ST SI :=
  match l with
  | [] => VOk _ _ _ _ s
  | (k, x) :: l' => vbind _ _ _ _ (on_object_key M SS ST SI free_s free_i k s) (fun s2 => vbind _ _ _ _ (V x s2) (visit_members l'))
  end.
Lemma visit_arr l s : V (JArr l) s =
  vbind _ _ _ _ (on_array_begin M SS ST SI free_s free_t s) (fun s1 => vbind _ _ _ _ (visit_all l s1) (on_array_end M SS ST SI done_s app_t done_t done_i)).
Proof. reflexivity. Qed.
Lemma visit_obj l s : V (JObj l) s =
  vbind _ _ _ _ (on_object_begin M SS ST SI s) (fun s1 => vbind _ _ _ _ (visit_members l s1) (on_object_end M SS ST SI)).
Proof. reflexivity. Qed.
Lemma visit_all_cons x l s : visit_all (x :: l) s = vbind _ _ _ _ (V x s) (visit_all l).
Proof. reflexivity. Qed.
Lemma visit_members_app l1 l2 s : visit_members (l1 ++ l2) s = vbind _ _ _ _ (visit_members l1 s) (visit_members l2).
Proof.
  revert s; induction l1 as [|[k x] l1 IH]; intro s; [reflexivity|]. cbn [app visit_members].
  destruct (on_object_key _ _ _ _ _ _ k s) as [s2| |]; [|reflexivity|reflexivity]. cbn [vbind].
  destruct (V x s2); [|reflexivity|reflexivity]. cbn [vbind]. apply IH.
Qed.
End Walk.

(** ** With plain lists *)
Notation psv := (sv unit (list str) (list (list str)) (list Z)).
Notation pok := (VOk unit (list str) (list (list str)) (list Z)).
Notation pv := (visit unit (list str) (list (list str)) (list Z) (fun _ => []) lapp ldone (fun _ => []) lapp ldone (fun _ => []) lapp ldone).
Notation pall := (visit_all unit (list str) (list (list str)) (list Z) (fun _ => []) lapp ldone (fun _ => []) lapp ldone (fun _ => []) lapp ldone).
Notation pmem := (visit_members unit (list str) (list (list str)) (list Z) (fun _ => []) lapp ldone (fun _ => []) lapp ldone (fun _ => []) lapp ldone).
Notation mk := (mkSv unit (list str) (list (list str)) (list Z)).
Notation pgev := (gev (list (list str))).
Notation pgflt := (gflt (list str) (list Z)).

Lemma p_tag_strings l : forall x e t f ft fn mn,
  pall (map JStr l) (mk x PAnEventTag e (Some t) f ft fn tt mn) = pok (mk x PAnEventTag e (Some (t ++ l)) f ft fn tt mn).
Proof. induction l as [|v l IH]; intros; [rewrite app_nil_r; reflexivity|]. cbn [map]. rewrite visit_all_cons.
  transitivity (pall (map JStr l) (mk x PAnEventTag e (Some (t ++ [v])) f ft fn tt mn)); [reflexivity|]. rewrite IH, <- app_assoc. reflexivity. Qed.
Lemma p_ftag_strings l : forall x e t f ft fn mn,
  pall (map JStr l) (mk x PAFilterTag e t f (Some ft) fn tt mn) = pok (mk x PAFilterTag e t f (Some (ft ++ l)) fn tt mn).
Proof. induction l as [|v l IH]; intros; [rewrite app_nil_r; reflexivity|]. cbn [map]. rewrite visit_all_cons.
  transitivity (pall (map JStr l) (mk x PAFilterTag e t f (Some (ft ++ [v])) fn tt mn)); [reflexivity|]. rewrite IH, <- app_assoc. reflexivity. Qed.
Lemma p_ids_strings l : forall x e t (f : pgflt) i ft fn mn, 
  pall (map JStr l) (mk x PIds e t (Some (fl_ids _ _ (Some i) f)) ft fn tt mn) = pok (mk x PIds e t (Some (fl_ids _ _ (Some (i ++ l)) f)) ft fn tt mn).
Proof. induction l as [|v l IH]; intros; [rewrite app_nil_r; reflexivity|]. cbn [map]. rewrite visit_all_cons.
  transitivity (pall (map JStr l) (mk x PIds e t (Some (fl_ids _ _ (Some (i ++ [v])) f)) ft fn tt mn)); [reflexivity|]. rewrite IH, <- app_assoc. reflexivity. Qed.
Lemma p_authors_strings l : forall x e t (f : pgflt) i ft fn mn, 
  pall (map JStr l) (mk x PAuthors e t (Some (fl_authors _ _ (Some i) f)) ft fn tt mn) = pok (mk x PAuthors e t (Some (fl_authors _ _ (Some (i ++ l)) f)) ft fn tt mn).
Proof. induction l as [|v l IH]; intros; [rewrite app_nil_r; reflexivity|]. cbn [map]. rewrite visit_all_cons.
  transitivity (pall (map JStr l) (mk x PAuthors e t (Some (fl_authors _ _ (Some (i ++ [v])) f)) ft fn tt mn)); [reflexivity|]. rewrite IH, <- app_assoc. reflexivity. Qed.

Definition small (z : Z) : Prop := (min_int64 <= z <= max_int64)%Z.
Definition jint (z : Z) : json := JNum (dec_Z z).
Lemma p_int z s : small z -> pv (jint z) s = on_int unit (list str) (list (list str)) (list Z) lapp z s.
Proof. intro H. unfold jint. cbn [visit]. rewrite parse_int_dec_Z by exact H. reflexivity. Qed.
Lemma p_kinds l : Forall small l -> forall x e t (f : pgflt) i ft fn mn,
  pall (map jint l) (mk x PKinds e t (Some (fl_kinds _ _ (Some i) f)) ft fn tt mn) = pok (mk x PKinds e t (Some (fl_kinds _ _ (Some (i ++ l)) f)) ft fn tt mn).
Proof. induction 1 as [|v l Hv Hl IH]; intros; [rewrite app_nil_r; reflexivity|]. cbn [map]. rewrite visit_all_cons, p_int by exact Hv.
  transitivity (pall (map jint l) (mk x PKinds e t (Some (fl_kinds _ _ (Some (i ++ [v])) f)) ft fn tt mn)); [reflexivity|]. rewrite IH, <- app_assoc. reflexivity. Qed.

Definition jstrs (l : list str) : json := JArr (map JStr l).
Lemma p_tags l : forall x (e : pgev) ts t f ft fn mn,
  exists t', pall (map jstrs l) (mk x PTagsList (Some (ge_tags _ (Some ts) e)) t f ft fn tt mn) = pok (mk x PTagsList (Some (ge_tags _ (Some (ts ++ l)) e)) t' f ft fn tt mn).
Proof.
  induction l as [|v l IH]; intros; [rewrite app_nil_r; eexists; reflexivity|]. cbn [map]. rewrite visit_all_cons. unfold jstrs at 1.
  rewrite visit_arr. cbn [on_array_begin v_pos]. cbn [vbind].
  match goal with |- context [pall (map JStr v) ?s] => change s with (mk x PAnEventTag (Some (ge_tags _ (Some ts) e)) (Some []) f ft fn tt mn) end.
  rewrite p_tag_strings. destruct (IH x e (ts ++ [v]) (Some v) f ft fn mn) as (t' & E). exists t'.
  rewrite <- app_assoc in E. exact E.
Qed.

(** *** An event object: attributes in any order; a later one replaces an earlier one *)
Inductive eattr := AId (s : str) | APubkey (s : str) | ASig (s : str) | AContent (s : str) | ACreated (z : Z) | AKind (z : Z) | ATags (l : list (list str)).
Definition eattr_json (a : eattr) : str * json :=
  match a with
  | AId s => (B "id", JStr s)
  | APubkey s => (B "pubkey", JStr s)
  | ASig s => (B "sig", JStr s)
  | AContent s => (B "content", JStr s)
  | ACreated z => (B "created_at", jint z)
  | AKind z => (B "kind", jint z)
  | ATags l => (B "tags", JArr (map jstrs l))
  end.
Definition eattr_ok (a : eattr) : Prop := match a with ACreated z | AKind z => small z | _ => True end.
Definition eattr_set (e : event) (a : eattr) : event :=
  match a with
  | AId s => mkEvent s (ev_pubkey e) (ev_created_at e) (ev_kind e) (ev_tags e) (ev_content e) (ev_sig e)
  | APubkey s => mkEvent (ev_id e) s (ev_created_at e) (ev_kind e) (ev_tags e) (ev_content e) (ev_sig e)
  | ASig s => mkEvent (ev_id e) (ev_pubkey e) (ev_created_at e) (ev_kind e) (ev_tags e) (ev_content e) s
  | AContent s => mkEvent (ev_id e) (ev_pubkey e) (ev_created_at e) (ev_kind e) (ev_tags e) s (ev_sig e)
  | ACreated z => mkEvent (ev_id e) (ev_pubkey e) z (ev_kind e) (ev_tags e) (ev_content e) (ev_sig e)
  | AKind z => mkEvent (ev_id e) (ev_pubkey e) (ev_created_at e) z (ev_tags e) (ev_content e) (ev_sig e)
  | ATags l => mkEvent (ev_id e) (ev_pubkey e) (ev_created_at e) (ev_kind e) l (ev_content e) (ev_sig e)
  end.
Notation vev := (view_ev (list (list str)) id).
Notation vfl := (view_flt (list str) (list Z) id id).

Lemma p_eattr a x (g : pgev) t f ft fn mn l : eattr_ok a ->
  exists g' t', vev g' = eattr_set (vev g) a /\
    pmem (eattr_json a :: l) (mk x PEventObject (Some g) t f ft fn tt mn) = pmem l (mk x PEventObject (Some g') t' f ft fn tt mn).
Proof.
  intro H. destruct a as [s|s|s|s|z|z|ts]; cbn [eattr_json eattr_ok] in *.
  1-4: do 2 eexists; split; [|reflexivity]; reflexivity.
  1-2: do 2 eexists; split; [|cbn [visit_members]; match goal with |- context [on_object_key _ _ _ _ _ _ ?k ?s] =>
      let r := eval cbn in (on_object_key _ _ _ _ (fun _ : unit => @nil str) (fun _ : unit => @nil Z) k s) in change (on_object_key _ _ _ _ (fun _ : unit => @nil str) (fun _ : unit => @nil Z) k s) with r end;
      cbn [vbind]; rewrite p_int by exact H; reflexivity]; reflexivity.
  cbn [visit_members].
  match goal with |- context [on_object_key _ _ _ _ _ _ ?k ?s] => 
    change (on_object_key _ _ _ _ (fun _ : unit => @nil str) (fun _ : unit => @nil Z) k s) with (pok (mk x PTags (Some g) t f ft fn tt mn)) end.
  cbn [vbind]. rewrite visit_arr.
  match goal with |- context [on_array_begin _ _ _ _ _ _ ?s] => 
    change (on_array_begin unit _ _ (list Z) (fun _ : unit => @nil str) (fun _ : unit => @nil (list str)) s) with (pok (mk x PTagsList (Some (ge_tags _ (Some []) g)) t f ft fn tt mn)) end.
  cbn [vbind]. destruct (p_tags ts x g [] t f ft fn mn) as (t' & E).
  exists (ge_tags _ (Some ts) g), t'. split; [reflexivity|]. rewrite E. reflexivity.
Qed.

Lemma p_event al : Forall eattr_ok al -> forall x (g : pgev) t f ft fn mn,
  exists g' t', vev g' = fold_left eattr_set al (vev g) /\
    pmem (map eattr_json al) (mk x PEventObject (Some g) t f ft fn tt mn) = pok (mk x PEventObject (Some g') t' f ft fn tt mn).
Proof.
  induction 1 as [|a al Ha Hal IH]; intros.
  - exists g, t. split; reflexivity.
  - cbn [map fold_left]. destruct (p_eattr a x g t f ft fn mn (map eattr_json al) Ha) as (g1 & t1 & E1 & E2). rewrite E2, <- E1. apply IH.
Qed.

(** *** A filter object *)
Inductive fattr := FIds (l : list str) | FKinds (l : list Z) | FAuthors (l : list str) | FTag (name : str) (l : list str)
  | FSince (z : Z) | FUntil (z : Z) | FLimit (z : Z) | FSearch (s : str).
Definition fattr_json (a : fattr) : str * json :=
  match a with
  | FIds l => (B "ids", jstrs l)
  | FKinds l => (B "kinds", JArr (map jint l))
  | FAuthors l => (B "authors", jstrs l)
  | FTag n l => ("#"%char :: n, jstrs l)
  | FSince z => (B "since", jint z)
  | FUntil z => (B "until", jint z)
  | FLimit z => (B "limit", jint z)
  | FSearch s => (B "search", JStr s)
  end.
Definition fattr_ok (a : fattr) : Prop :=
  match a with FKinds l => Forall small l | FTag n _ => n <> [] | FSince z | FUntil z | FLimit z => small z | _ => True end.
(** The map of tags: the list under a name is replaced, a new name is added. *)
Definition fattr_set (f : nfilter) (a : fattr) : nfilter :=
  match a with
  | FIds l => mkFilter (Some l) (f_kinds f) (f_authors f) (f_tags f) (f_since f) (f_until f) (f_limit f) (f_search f) (f_limit_zero f)
  | FKinds l => mkFilter (f_ids f) (Some l) (f_authors f) (f_tags f) (f_since f) (f_until f) (f_limit f) (f_search f) (f_limit_zero f)
  | FAuthors l => mkFilter (f_ids f) (f_kinds f) (Some l) (f_tags f) (f_since f) (f_until f) (f_limit f) (f_search f) (f_limit_zero f)
  | FTag n l => mkFilter (f_ids f) (f_kinds f) (f_authors f) (map_set n (Some l) (f_tags f)) (f_since f) (f_until f) (f_limit f) (f_search f) (f_limit_zero f)
  | FSince z => mkFilter (f_ids f) (f_kinds f) (f_authors f) (f_tags f) (Some z) (f_until f) (f_limit f) (f_search f) (f_limit_zero f)
  | FUntil z => mkFilter (f_ids f) (f_kinds f) (f_authors f) (f_tags f) (f_since f) (Some z) (f_limit f) (f_search f) (f_limit_zero f)
  | FLimit z => mkFilter (f_ids f) (f_kinds f) (f_authors f) (f_tags f) (f_since f) (f_until f) z (f_search f) (Z.eqb z 0)
  | FSearch s => mkFilter (f_ids f) (f_kinds f) (f_authors f) (f_tags f) (f_since f) (f_until f) (f_limit f) s (f_limit_zero f)
  end.

Lemma map_set_view n (l : list str) (m : list (str * option (list str))) :
  map (fun kv => (fst kv, option_map id (snd kv))) (map_set n (Some l) m) = map_set n (Some l) (map (fun kv => (fst kv, option_map id (snd kv))) m).
Proof. induction m as [|[k v] m IH]; [reflexivity|]. cbn [map map_set fst snd]. destruct (seqb n k); [reflexivity|]. cbn [map fst snd]. rewrite IH. reflexivity. Qed.

Lemma p_fattr a x e t (f : pgflt) ft fn mn l : fattr_ok a ->
  exists f' ft' fn', vfl f' = fattr_set (vfl f) a /\
    pmem (fattr_json a :: l) (mk x PFilterObject e t (Some f) ft fn tt mn) = pmem l (mk x PFilterObject e t (Some f') ft' fn' tt mn).
Proof.
  intro H. destruct a as [is|ks|as_|n is|z|z|z|s]; cbn [fattr_json fattr_ok] in *.
  8: do 3 eexists; split; [|reflexivity]; reflexivity.
  5-7: do 3 eexists; split; [|cbn [visit_members]; match goal with |- context [on_object_key _ _ _ _ _ _ ?k ?s] =>
      let r := eval cbn in (on_object_key _ _ _ _ (fun _ : unit => @nil str) (fun _ : unit => @nil Z) k s) in change (on_object_key _ _ _ _ (fun _ : unit => @nil str) (fun _ : unit => @nil Z) k s) with r end;
      cbn [vbind]; rewrite p_int by exact H; reflexivity]; reflexivity.
  - exists (fl_ids _ _ (Some is) f), ft, fn. split; [reflexivity|]. cbn [visit_members].
    match goal with |- context [on_object_key _ _ _ _ _ _ ?k ?s] => 
      change (on_object_key _ _ _ _ (fun _ : unit => @nil str) (fun _ : unit => @nil Z) k s) with (pok (mk x PIds e t (Some (fl_ids _ _ (Some []) f)) ft fn tt mn)) end.
    cbn [vbind]. unfold jstrs. rewrite visit_arr.
    match goal with |- context [on_array_begin _ _ _ _ _ _ ?s] => 
      change (on_array_begin unit _ _ (list Z) (fun _ : unit => @nil str) (fun _ : unit => @nil (list str)) s) with (pok s) end.
    cbn [vbind]. rewrite p_ids_strings. reflexivity.
  - exists (fl_kinds _ _ (Some ks) f), ft, fn. split; [reflexivity|]. cbn [visit_members].
    match goal with |- context [on_object_key _ _ _ _ _ _ ?k ?s] => 
      change (on_object_key _ _ _ _ (fun _ : unit => @nil str) (fun _ : unit => @nil Z) k s) with (pok (mk x PKinds e t (Some (fl_kinds _ _ (Some []) f)) ft fn tt mn)) end.
    cbn [vbind]. rewrite visit_arr.
    match goal with |- context [on_array_begin _ _ _ _ _ _ ?s] => 
      change (on_array_begin unit _ _ (list Z) (fun _ : unit => @nil str) (fun _ : unit => @nil (list str)) s) with (pok s) end.
    cbn [vbind]. rewrite p_kinds by exact H. reflexivity.
  - exists (fl_authors _ _ (Some as_) f), ft, fn. split; [reflexivity|]. cbn [visit_members].
    match goal with |- context [on_object_key _ _ _ _ _ _ ?k ?s] => 
      change (on_object_key _ _ _ _ (fun _ : unit => @nil str) (fun _ : unit => @nil Z) k s) with (pok (mk x PAuthors e t (Some (fl_authors _ _ (Some []) f)) ft fn tt mn)) end.
    cbn [vbind]. unfold jstrs. rewrite visit_arr.
    match goal with |- context [on_array_begin _ _ _ _ _ _ ?s] => 
      change (on_array_begin unit _ _ (list Z) (fun _ : unit => @nil str) (fun _ : unit => @nil (list str)) s) with (pok s) end.
    cbn [vbind]. rewrite p_authors_strings. reflexivity.
  - destruct n as [|c n]; [contradiction|]. exists (fl_tags _ _ (map_set (c :: n) (Some is) (gf_tags f)) f), (Some is), (c :: n).
    split; [unfold view_flt, fattr_set; cbn [fl_tags gf_tags f_tags gf_ids gf_kinds gf_authors gf_since gf_until gf_limit gf_search gf_limit_zero
       f_ids f_kinds f_authors f_since f_until f_limit f_search f_limit_zero]; rewrite map_set_view; reflexivity|]. cbn [visit_members].
    match goal with |- context [on_object_key _ _ _ _ _ _ ?k ?s] => 
      change (on_object_key _ _ _ _ (fun _ : unit => @nil str) (fun _ : unit => @nil Z) k s) with (pok (mk x PAFilterTag e t (Some f) (Some []) (c :: n) tt mn)) end.
    cbn [vbind]. unfold jstrs. rewrite visit_arr.
    match goal with |- context [on_array_begin _ _ _ _ _ _ ?s] => 
      change (on_array_begin unit _ _ (list Z) (fun _ : unit => @nil str) (fun _ : unit => @nil (list str)) s) with (pok s) end.
    cbn [vbind]. rewrite p_ftag_strings. reflexivity.
Qed.

Lemma p_filter al : Forall fattr_ok al -> forall x e t (f : pgflt) ft fn mn,
  exists f' ft' fn', vfl f' = fold_left fattr_set al (vfl f) /\
    pmem (map fattr_json al) (mk x PFilterObject e t (Some f) ft fn tt mn) = pok (mk x PFilterObject e t (Some f') ft' fn' tt mn).
Proof.
  induction 1 as [|a al Ha Hal IH]; intros.
  - exists f, ft, fn. split; reflexivity.
  - cbn [map fold_left]. destruct (p_fattr a x e t f ft fn mn (map fattr_json al) Ha) as (f1 & ft1 & fn1 & E1 & E2). rewrite E2, <- E1. apply IH.
Qed.

Definition ejson (al : list eattr) : json := JObj (map eattr_json al).
Definition fjson (al : list fattr) : json := JObj (map fattr_json al).
Definition made_event (al : list eattr) : event := fold_left eattr_set al zero_event.
Definition made_filter (al : list fattr) : nfilter := fold_left fattr_set al zero_filter.

Lemma p_filters als : Forall (Forall fattr_ok) als -> forall sub fs ft fn,
  exists fs' ft' fn', map vfl fs' = map vfl fs ++ map made_filter als /\
    pall (map fjson als) (mk (XReq sub fs) PReq None None None ft fn tt MNone) = pok (mk (XReq sub fs') PReq None None None ft' fn' tt MNone).
Proof.
  induction 1 as [|al als Ha Hals IH]; intros.
  - exists fs, ft, fn. rewrite app_nil_r. split; reflexivity.
  - cbn [map]. rewrite visit_all_cons. unfold fjson at 1. rewrite visit_obj.
    match goal with |- context [on_object_begin _ _ _ _ ?s] => change (on_object_begin _ _ _ _ s) with
      (pok (mk (XReq sub fs) PFilterObject None None (Some (gflt0 _ _)) ft fn tt MNone)) end.
    cbn [vbind]. destruct (p_filter al Ha (XReq sub fs) None None (gflt0 _ _) ft fn MNone) as (f & ft1 & fn1 & E1 & E2). rewrite E2. cbn [vbind].
    match goal with |- context [on_object_end _ _ _ _ ?s] => change (on_object_end _ _ _ _ s) with
      (pok (mk (XReq sub (fs ++ [f])) PReq None None None ft1 fn1 tt MNone)) end.
    cbn [vbind]. destruct (IH sub (fs ++ [f]) ft1 fn1) as (fs' & ft' & fn' & E3 & E4). exists fs', ft', fn'. split; [|exact E4].
    rewrite E3, map_app. cbn [map]. rewrite <- app_assoc, E1. reflexivity.
Qed.

(** ** Whole messages *)
Notation msg m := (Ok (Some (SMsg m), @None verr)).
Lemma s_event sub al : Forall eattr_ok al ->
  sonic_json (JArr (JStr (B "EVENT") :: match sub with Some s => [JStr s] | None => [] end ++ [ejson al])) = msg (EEvent sub (made_event al)).
Proof.
  intro H. unfold sonic_json, run. rewrite visit_arr. unfold start. cbn [on_array_begin v_pos vbind].
  assert (E : forall y, pall [ejson al] (mk (XEvent sub (gev0 _)) PEvent None None None None [] tt MNone) = y -> 
     pall (JStr (B "EVENT") :: match sub with Some s => [JStr s] | None => [] end ++ [ejson al]) (mk XNone PEnvelope None None None None [] tt MNone) = y).
  { intros y <-. destruct sub; reflexivity. }
  rewrite (E _ eq_refl). clear E. rewrite visit_all_cons. unfold ejson. rewrite visit_obj.
  match goal with |- context [on_object_begin _ _ _ _ ?s] => change (on_object_begin _ _ _ _ s) with
      (pok (mk (XEvent sub (gev0 _)) PEventObject (Some (gev0 _)) None None None [] tt MNone)) end.
  cbn [vbind]. destruct (p_event al H (XEvent sub (gev0 _)) (gev0 _) None None None [] MNone) as (g & t & E1 & E2). rewrite E2.
  cbn. rewrite E1. reflexivity.
Qed.
Lemma s_auth_event al : Forall eattr_ok al -> sonic_json (JArr [JStr (B "AUTH"); ejson al]) = msg (EAuth None (made_event al)).
Proof.
  intro H. unfold sonic_json, run. rewrite visit_arr. unfold start. cbn [on_array_begin v_pos vbind].
  assert (E : forall y, pall [ejson al] (mk (XAuth None (gev0 _)) PAuth None None None None [] tt MNone) = y -> 
     pall [JStr (B "AUTH"); ejson al] (mk XNone PEnvelope None None None None [] tt MNone) = y).
  { intros y <-. reflexivity. }
  rewrite (E _ eq_refl). clear E. rewrite visit_all_cons. unfold ejson. rewrite visit_obj.
  match goal with |- context [on_object_begin _ _ _ _ ?s] => change (on_object_begin _ _ _ _ s) with
      (pok (mk (XAuth None (gev0 _)) PEventObject (Some (gev0 _)) None None None [] tt MNone)) end.
  cbn [vbind]. destruct (p_event al H (XAuth None (gev0 _)) (gev0 _) None None None [] MNone) as (g & t & E1 & E2). rewrite E2.
  cbn. rewrite E1. reflexivity.
Qed.
Lemma s_req sub als : Forall (Forall fattr_ok) als ->
  sonic_json (JArr (JStr (B "REQ") :: JStr sub :: map fjson als)) = msg (EReq sub (map made_filter als)).
Proof.
  intro H. unfold sonic_json, run. rewrite visit_arr. unfold start. cbn [on_array_begin v_pos vbind].
  assert (E : forall y, pall (map fjson als) (mk (XReq sub []) PReq None None None None [] tt MNone) = y -> 
     pall (JStr (B "REQ") :: JStr sub :: map fjson als) (mk XNone PEnvelope None None None None [] tt MNone) = y).
  { intros y <-. reflexivity. }
  rewrite (E _ eq_refl). clear E. destruct (p_filters als H sub [] None []) as (fs & ft & fn & E1 & E2). rewrite E2.
  cbn [vbind on_array_end v_pos]. cbn [main_of set_main v_main v_env option_map view_env]. rewrite E1. reflexivity.
Qed.
Lemma s_count sub al : Forall fattr_ok al ->
  sonic_json (JArr [JStr (B "COUNT"); JStr sub; fjson al]) = msg (ECount sub (made_filter al) None None).
Proof.
  intro H. unfold sonic_json, run. rewrite visit_arr. unfold start. cbn [on_array_begin v_pos vbind].
  assert (E : forall y, pall [fjson al] (mk (XCount sub (gflt0 _ _) None None) PCount None None None None [] tt MNone) = y -> 
     pall [JStr (B "COUNT"); JStr sub; fjson al] (mk XNone PEnvelope None None None None [] tt MNone) = y).
  { intros y <-. reflexivity. }
  rewrite (E _ eq_refl). clear E. rewrite visit_all_cons. unfold fjson. rewrite visit_obj.
  match goal with |- context [on_object_begin _ _ _ _ ?s] => change (on_object_begin _ _ _ _ s) with
      (pok (mk (XCount sub (gflt0 _ _) None None) PFilterObject None None (Some (gflt0 _ _)) None [] tt MNone)) end.
  cbn [vbind]. destruct (p_filter al H (XCount sub (gflt0 _ _) None None) None None (gflt0 _ _) None [] MNone) as (f & ft & fn & E1 & E2). rewrite E2.
  cbn. rewrite E1. reflexivity.
Qed.

Lemma hex_bytes_decode : forall t h, hex_decode t = Some h -> hex_bytes t = h.
Proof.
  fix IH 1. intros [|a [|b t]] h; cbn [hex_decode hex_bytes]; try congruence.
  destruct (hex_val a); [|discriminate]. destruct (hex_val b); [|discriminate].
  pose proof (IH t) as IHt. clear IH. destruct (hex_decode t) as [r|]; [|discriminate]. intro E.
  rewrite (IHt r eq_refl). congruence.
Qed.
Lemma hex_bytes_encode h : hex_bytes (hex_encode h) = h.
Proof. apply hex_bytes_decode, hex_decode_encode. Qed.

(** ** What the library writes, as attributes *)
Definition opt_attr (mkA : str -> eattr) (s : str) : list eattr := match s with [] => [] | _ => [mkA s] end.
Definition event_attrs (e : event) : list eattr :=
  [AKind (ev_kind e)] ++ opt_attr AId (ev_id e) ++ opt_attr APubkey (ev_pubkey e) ++
  [ACreated (ev_created_at e); ATags (ev_tags e); AContent (ev_content e)] ++ opt_attr ASig (ev_sig e).
Definition writes (p : str * str) (kv : str * json) : Prop := enc_chars (fst p) (fst kv) /\ enc (snd p) (snd kv).

Lemma encode_event_attrs e : text_event e ->
  Forall eattr_ok (event_attrs e) /\ made_event (event_attrs e) = e /\ enc (encode_event e) (ejson (event_attrs e)).
Proof.
  intros (H1 & H2 & H3 & H4 & H5 & H6 & H7). split; [|split].
  - unfold event_attrs, opt_attr. rewrite !Forall_app. refine (conj _ (conj _ (conj _ (conj _ _)))).
    + constructor; [exact H7|constructor].
    + destruct (ev_id e); repeat constructor.
    + destruct (ev_pubkey e); repeat constructor.
    + constructor; [exact H6|repeat constructor].
    + destruct (ev_sig e); repeat constructor.
  - unfold made_event, event_attrs, opt_attr. destruct e as [i p c k t n s]. cbn [ev_id ev_pubkey ev_created_at ev_kind ev_tags ev_content ev_sig].
    destruct i, p, s; reflexivity.
  - rewrite encode_event_object. apply object_enc. unfold event_members, event_attrs. rewrite !map_app.
    assert (O : forall k mkA s, forallb plain_char k = true -> utf8_text s -> (forall s, eattr_json (mkA s) = (k, JStr s)) ->
      Forall2 writes (opt_member k s) (map eattr_json (opt_attr mkA s))).
    { intros k mkA s Hk Hs Hj. destruct s as [|c s]; [constructor|]. cbn [opt_member opt_attr map]. rewrite Hj.
      constructor; [|constructor]. split; [apply enc_key, Hk|apply jw_string_enc, Hs]. }
    apply Forall2_app; [constructor; [split; [apply enc_key; reflexivity|apply e_int]|constructor]|].
    apply Forall2_app; [apply O; [reflexivity|exact H1|reflexivity]|].
    apply Forall2_app; [apply O; [reflexivity|exact H2|reflexivity]|].
    apply Forall2_app; [|apply O; [reflexivity|exact H4|reflexivity]].
    constructor; [split; [apply enc_key; reflexivity|apply e_int]|].
    constructor; [split; [apply enc_key; reflexivity|]|].
    + cbn [snd eattr_json]. apply (enc_jw_array jw_strings jstrs). intros t Ht. apply enc_jw_strings. rewrite Forall_forall in H5. apply H5, Ht.
    + constructor; [split; [apply enc_key; reflexivity|apply jw_string_enc, H3]|constructor].
Qed.

Definition list_attr {A} (mkA : list A -> fattr) (o : option (list A)) : list fattr := match ov o with [] => [] | l => [mkA l] end.
Definition time_attr (mkA : Z -> fattr) (o : option Z) : list fattr := match o with Some t => [mkA t] | None => [] end.
Definition filter_attrs (f : nfilter) : list fattr :=
  list_attr FIds (f_ids f) ++ list_attr FKinds (f_kinds f) ++ list_attr FAuthors (f_authors f) ++ time_attr FSince (f_since f) ++ time_attr FUntil (f_until f) ++
  (if negb (Z.eqb (f_limit f) 0) || f_limit_zero f then [FLimit (f_limit f)] else []) ++
  match f_search f with [] => [] | s => [FSearch s] end ++ map (fun p => FTag (fst p) (ov (snd p))) (f_tags f).

Lemma made_tags m : forall f, NoDup (map fst m) -> (forall k, In k (map fst m) -> ~ In k (map fst (f_tags f))) ->
  fold_left fattr_set (map (fun p => FTag (fst p) (ov (snd p))) m) f =
  mkFilter (f_ids f) (f_kinds f) (f_authors f) (f_tags f ++ map (fun p => (fst p, Some (ov (snd p)))) m) (f_since f) (f_until f) (f_limit f) (f_search f) (f_limit_zero f).
Proof.
  induction m as [|[k o] m IH]; intros f Hn Hd.
  - cbn [map fold_left]. rewrite app_nil_r. destruct f; reflexivity.
  - cbn [map fst] in Hn. inversion Hn as [|k' m' Hk Hm]; subst. cbn [map fold_left fst snd fattr_set]. rewrite IH; [|exact Hm|].
    + cbn [f_ids f_kinds f_authors f_tags f_since f_until f_limit f_search f_limit_zero].
      rewrite map_set_new by (apply Hd; left; reflexivity). rewrite <- app_assoc. reflexivity.
    + intros k' Hk'. cbn [f_tags]. rewrite map_set_new by (apply Hd; left; reflexivity). rewrite map_app, in_app_iff. cbn [map fst In].
      intros [X|[X|[]]]; [revert X; apply Hd; right; exact Hk'|subst; contradiction].
Qed.

Lemma encode_filter_attrs f : text_filter f ->
  Forall fattr_ok (filter_attrs f) /\ made_filter (filter_attrs f) = canon f /\ enc (encode_filter f) (fjson (filter_attrs f)).
Proof.
  intros (H1 & H2 & H3 & H4 & H5 & H6 & H7 & H8 & H9). split; [|split].
  - unfold filter_attrs, list_attr, time_attr. rewrite !Forall_app. refine (conj _ (conj _ (conj _ (conj _ (conj _ (conj _ (conj _ _))))))).
    + destruct (ov (f_ids f)); repeat constructor.
    + destruct (ov (f_kinds f)); [constructor|]. constructor; [exact H2|constructor].
    + destruct (ov (f_authors f)); repeat constructor.
    + destruct (f_since f); [|constructor]. constructor; [exact (H4 _ eq_refl)|constructor].
    + destruct (f_until f); [|constructor]. constructor; [exact (H5 _ eq_refl)|constructor].
    + destruct (_ || _); [|constructor]. constructor; [exact H6|constructor].
    + destruct (f_search f); repeat constructor.
    + apply Forall_forall. intros a Ha. apply in_map_iff in Ha as (p & <- & Hp). rewrite Forall_forall in H9. exact (proj1 (H9 p Hp)).
  - unfold made_filter, filter_attrs, list_attr, time_attr, canon, non_empty. rewrite !fold_left_app. rewrite made_tags; [|exact H8|].
    + destruct (ov (f_ids f)), (ov (f_kinds f)), (ov (f_authors f)), (f_since f), (f_until f), (f_search f); 
      destruct (Z.eqb (f_limit f) 0) eqn:EL; try (apply Z.eqb_eq in EL; rewrite EL); destruct (f_limit_zero f);
      cbn [fold_left negb orb andb fattr_set zero_filter f_ids f_kinds f_authors f_tags f_since f_until f_limit f_search f_limit_zero app]; try rewrite EL; reflexivity.
    + intros k _. destruct (ov (f_ids f)), (ov (f_kinds f)), (ov (f_authors f)), (f_since f), (f_until f), (f_search f), (_ || _);
      cbn [fold_left fattr_set zero_filter f_tags map]; intros [].
  - rewrite encode_filter_object. apply object_enc. unfold filter_members, filter_attrs. rewrite !map_app.
    repeat apply Forall2_app.
    + unfold list_member, list_attr. destruct (ov (f_ids f)) as [|x l] eqn:E; [constructor|]. constructor; [|constructor]. split; [apply enc_key; reflexivity|apply enc_jw_strings; exact H1].
    + unfold list_member, list_attr. destruct (ov (f_kinds f)) as [|x l] eqn:E; [constructor|]. constructor; [|constructor]. split; [apply enc_key; reflexivity|].
      apply (enc_jw_array dec_Z jint). intros; apply e_int.
    + unfold list_member, list_attr. destruct (ov (f_authors f)) as [|x l] eqn:E; [constructor|]. constructor; [|constructor]. split; [apply enc_key; reflexivity|apply enc_jw_strings; exact H3].
    + unfold time_member, time_attr. destruct (f_since f); [|constructor]. constructor; [|constructor]. split; [apply enc_key; reflexivity|apply e_int].
    + unfold time_member, time_attr. destruct (f_until f); [|constructor]. constructor; [|constructor]. split; [apply enc_key; reflexivity|apply e_int].
    + destruct (_ || _); [|constructor]. constructor; [|constructor]. split; [apply enc_key; reflexivity|apply e_int].
    + unfold opt_member. destruct (f_search f) as [|c s]; [constructor|]. constructor; [|constructor]. split; [apply enc_key; reflexivity|apply jw_string_enc; exact H7].
    + clear -H9. induction H9 as [|[k o] m (A & D & E) H IH]; cbn [map]; constructor; [|exact IH]. cbn [fst snd] in *. split.
      * unfold tag_member. cbn [fst snd fattr_json]. apply enc_key. cbn [forallb]. rewrite D. reflexivity.
      * unfold tag_member. cbn [fst snd fattr_json]. apply enc_jw_strings, E.
Qed.

(** The ids that are written raw hold no control bytes. The fields a reply is told apart by are not empty. *)
Definition plain_ids (m : envelope) : Prop :=
  match m with
  | EEvent (Some s) _ => forallb plain_char s = true
  | EReq s _ | ECount s _ _ _ => forallb plain_char s = true
  | EOk id _ _ => forallb plain_char id = true /\ id <> []
  | EClosed s _ => s <> []
  | _ => True
  end.

Lemma enc_qt s : forallb plain_char s = true -> enc (qt s) (JStr s).
Proof. intro H. apply e_str, enc_plain, H. Qed.
Lemma enc_jit s : enc (jit_string s) (JStr s).
Proof. apply e_str, jit_enc. Qed.
Lemma enc_list l : Forall (fun p : str * json => enc (fst p) (snd p)) l -> enc (jw_array (map fst l)) (JArr (map snd l)).
Proof. intro H. apply enc_jw_array. rewrite Forall_forall in H. exact H. Qed.

Lemma sonic_reads l x : Forall (fun p : str * json => enc (fst p) (snd p)) l -> sonic_json (JArr (map snd l)) = x -> sonic_parse (jw_array (map fst l)) = x.
Proof. intros H E. unfold sonic_parse. rewrite (json_parse_enc _ _ (enc_list l H)). exact E. Qed.

Ltac lab := apply Forall_cons; [apply enc_qt; reflexivity|].

Lemma sonic_round_trip m : wf_envelope m -> plain_ids m -> exists t, marshal m = Ok t /\ sonic_parse t = msg (received m).
Proof.
  destruct m as [sub e|sub fs|sub f count hll|s|s|s|sub reason|id ok reason|[c|] e]; cbn [wf_envelope received plain_ids]; intros H P.
  - destruct H as [Hs He]. destruct (encode_event_attrs e He) as (A1 & A2 & A3).
    exists (jw_array (qt (B "EVENT") :: match sub with Some s => [qt s] | None => [] end ++ [encode_event e])). split.
    + cbn [marshal]. rewrite marshal_array. destruct sub; norm_text; reflexivity.
    + pose proof (s_event sub _ A1) as E. rewrite A2 in E. destruct sub as [s|].
      * apply (sonic_reads [(qt (B "EVENT"), JStr (B "EVENT")); (qt s, JStr s); (encode_event e, ejson (event_attrs e))]); [|exact E].
        lab. constructor; [apply enc_qt, P|constructor; [exact A3|constructor]].
      * apply (sonic_reads [(qt (B "EVENT"), JStr (B "EVENT")); (encode_event e, ejson (event_attrs e))]); [|exact E].
        lab. constructor; [exact A3|constructor].
  - destruct H as (Hs & Hn & Hf). 
    exists (jw_array (qt (B "REQ") :: qt sub :: map encode_filter fs)). split.
    + assert (T : tails (map encode_filter fs) = flat_map (fun f => ","%char :: encode_filter f) fs)
        by (unfold tails; rewrite flat_map_concat_map, flat_map_concat_map, map_map; reflexivity).
      cbn [marshal]. rewrite marshal_array, tails_cons, T. norm_text. reflexivity.
    + pose proof (sonic_reads ([(qt (B "REQ"), JStr (B "REQ")); (qt sub, JStr sub)] ++ map (fun f => (encode_filter f, fjson (filter_attrs f))) fs) (msg (EReq sub (map canon fs)))) as E.
      cbn [app map fst snd] in E. rewrite !map_map in E. cbn [fst snd] in E. apply E.
      * lab. constructor; [apply enc_qt, P|]. apply Forall_forall. intros p Hp. apply in_map_iff in Hp as (f & <- & Hi).
        rewrite Forall_forall in Hf. exact (proj2 (proj2 (encode_filter_attrs f (Hf f Hi)))).
      * assert (F : map (fun f => fjson (filter_attrs f)) fs = map fjson (map filter_attrs fs)) by (rewrite map_map; reflexivity). rewrite F.
        rewrite s_req.
        -- do 5 f_equal. rewrite map_map. apply map_ext_in. intros f Hi. rewrite Forall_forall in Hf. exact (proj1 (proj2 (encode_filter_attrs f (Hf f Hi)))).
        -- apply Forall_forall. intros al Ha. apply in_map_iff in Ha as (f & <- & Hi). rewrite Forall_forall in Hf. exact (proj1 (encode_filter_attrs f (Hf f Hi))).
  - destruct H as (Hs & H). destruct count as [n|].
    + destruct H as [Hn Hh]. destruct hll as [h|].
      * set (body := B "{""count"":" ++ dec_Z n ++ B ",""hll"":""" ++ hex_encode h ++ [quote] ++ B "}").
        exists (jw_array (qt (B "COUNT") :: [qt sub; body])). split.
        -- cbn [marshal]. rewrite hll_hex_256 by exact Hh. cbn [obind]. rewrite marshal_array. unfold body. norm_text. reflexivity.
        -- apply (sonic_reads [(qt (B "COUNT"), JStr (B "COUNT")); (qt sub, JStr sub); (body, JObj [(B "count", JNum (dec_Z n)); (B "hll", JStr (hex_encode h))])]).
           ++ lab. constructor; [apply enc_qt, P|constructor; [apply count_body_enc|constructor]].
           ++ transitivity (match (match parse_int (dec_Z n) with Some z => Some z | None => None end) with
                | Some z => msg (ECount sub zero_filter (Some z) (Some (hex_bytes (hex_encode h)))) | None => sonic_json (JArr (map snd [(qt (B "COUNT"), JStr (B "COUNT")); (qt sub, JStr sub); (body, JObj [(B "count", JNum (dec_Z n)); (B "hll", JStr (hex_encode h))])])) end).
              ** unfold sonic_json, run. cbn [map snd visit start vbind on_array_begin v_pos on_string].
                 destruct (parse_int (dec_Z n)) eqn:EP; reflexivity.
              ** rewrite parse_int_dec_Z by exact Hn. rewrite hex_bytes_encode. reflexivity.
      * set (body := B "{""count"":" ++ dec_Z n ++ B "}").
        exists (jw_array (qt (B "COUNT") :: [qt sub; body])). split.
        -- cbn [marshal obind]. rewrite marshal_array. unfold body. norm_text. reflexivity.
        -- apply (sonic_reads [(qt (B "COUNT"), JStr (B "COUNT")); (qt sub, JStr sub); (body, JObj [(B "count", JNum (dec_Z n))])]).
           ++ lab. constructor; [apply enc_qt, P|constructor; [apply count_body_enc0|constructor]].
           ++ transitivity (match (match parse_int (dec_Z n) with Some z => Some z | None => None end) with
                | Some z => msg (ECount sub zero_filter (Some z) None) | None => sonic_json (JArr (map snd [(qt (B "COUNT"), JStr (B "COUNT")); (qt sub, JStr sub); (body, JObj [(B "count", JNum (dec_Z n))])])) end).
              ** unfold sonic_json, run. cbn [map snd visit start vbind on_array_begin v_pos on_string].
                 destruct (parse_int (dec_Z n)) eqn:EP; reflexivity.
              ** rewrite parse_int_dec_Z by exact Hn. reflexivity.
    + destruct (encode_filter_attrs f H) as (A1 & A2 & A3).
      exists (jw_array (qt (B "COUNT") :: [qt sub; encode_filter f])). split.
      * cbn [marshal obind]. rewrite marshal_array. norm_text. reflexivity.
      * apply (sonic_reads [(qt (B "COUNT"), JStr (B "COUNT")); (qt sub, JStr sub); (encode_filter f, fjson (filter_attrs f))]).
        -- lab. constructor; [apply enc_qt, P|constructor; [exact A3|constructor]].
        -- cbn [map snd]. rewrite s_count, A2 by exact A1. reflexivity.
  - exists (jw_array (qt (B "NOTICE") :: [jit_string s])). split; [cbn [marshal]; rewrite marshal_array; norm_text; reflexivity|].
    apply (sonic_reads [(qt (B "NOTICE"), JStr (B "NOTICE")); (jit_string s, JStr s)]); [|reflexivity]. lab. constructor; [apply enc_jit|constructor].
  - exists (jw_array (qt (B "EOSE") :: [jit_string s])). split; [cbn [marshal]; rewrite marshal_array; norm_text; reflexivity|].
    apply (sonic_reads [(qt (B "EOSE"), JStr (B "EOSE")); (jit_string s, JStr s)]); [|reflexivity]. lab. constructor; [apply enc_jit|constructor].
  - exists (jw_array (qt (B "CLOSE") :: [jit_string s])). split; [cbn [marshal]; rewrite marshal_array; norm_text; reflexivity|].
    apply (sonic_reads [(qt (B "CLOSE"), JStr (B "CLOSE")); (jit_string s, JStr s)]); [|reflexivity]. lab. constructor; [apply enc_jit|constructor].
  - exists (jw_array (qt (B "CLOSED") :: [jit_string sub; jit_string reason])). split; [cbn [marshal]; rewrite marshal_array; norm_text; reflexivity|].
    apply (sonic_reads [(qt (B "CLOSED"), JStr (B "CLOSED")); (jit_string sub, JStr sub); (jit_string reason, JStr reason)]).
    + lab. constructor; [apply enc_jit|constructor; [apply enc_jit|constructor]].
    + destruct sub as [|c sub]; [contradiction|reflexivity].
  - destruct P as [P N]. set (b := if ok then B "true" else B "false").
    exists (jw_array (qt (B "OK") :: [qt id; b; jit_string reason])). split; [cbn [marshal]; rewrite marshal_array; fold b; norm_text; reflexivity|].
    apply (sonic_reads [(qt (B "OK"), JStr (B "OK")); (qt id, JStr id); (b, JBool ok); (jit_string reason, JStr reason)]).
    + lab. constructor; [apply enc_qt, P|constructor; [unfold b; destruct ok; constructor|constructor; [apply enc_jit|constructor]]].
    + destruct id as [|c id]; [contradiction|reflexivity].
  - exists (jw_array (qt (B "AUTH") :: [jit_string c])). split; [cbn [marshal]; rewrite marshal_array; norm_text; reflexivity|].
    apply (sonic_reads [(qt (B "AUTH"), JStr (B "AUTH")); (jit_string c, JStr c)]); [|reflexivity]. lab. constructor; [apply enc_jit|constructor].
  - destruct (encode_event_attrs e H) as (A1 & A2 & A3).
    exists (jw_array (qt (B "AUTH") :: [encode_event e])). split; [cbn [marshal]; rewrite marshal_array; norm_text; reflexivity|].
    apply (sonic_reads [(qt (B "AUTH"), JStr (B "AUTH")); (encode_event e, ejson (event_attrs e))]).
    + lab. constructor; [exact A3|constructor].
    + cbn [map snd]. rewrite s_auth_event, A2 by exact A1. reflexivity.
Qed.
