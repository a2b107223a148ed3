(** Filters: /repo/filter.go and /repo/helpers.go:31-50, 92-100. *)
From Verif Require Import Base EventModel TagsModel.

(** filter.go:11-25. A slice is None when nil. The tag map is an association list with distinct keys
    (hypothesis [wf_filter] where it matters); a nil map and an empty one behave alike in every function here. *)
Record nfilter := mkFilter {
  f_ids : option (list str);
  f_kinds : option (list Z);
  f_authors : option (list str);
  f_tags : list (str * option (list str));
  f_since : option Z;
  f_until : option Z;
  f_limit : Z;
  f_search : str;
  f_limit_zero : bool
}.

Definition wf_filter (f : nfilter) : Prop := NoDup (map fst (f_tags f)).

(** Go map lookup m[k] *)
Fixpoint assoc {V} (k : str) (m : list (str * V)) : option V :=
  match m with
  | [] => None
  | (k', v) :: m' => if seqb k k' then Some v else assoc k m'
  end.

(** filter.go:88-92: the loop over the tag map *)
Fixpoint tags_loop (m : list (str * option (list str))) (e : event) : bool :=
  match m with
  | [] => true
  | (k, v) :: m' =>
    match v with
    | Some vs => if negb (contains_any (ev_tags e) k vs) then false else tags_loop m' e
    | None => tags_loop m' e
    end
  end.

Definition listed {A} (mem : A -> list A -> bool) (x : A) (o : option (list A)) : bool :=
  match o with None => true | Some l => mem x l end.

(** filter.go:71-95 *)
Definition matches_ignoring_time (f : nfilter) (ev : option event) : bool :=
  match ev with
  | None => false
  | Some e =>
    if negb (listed smem (ev_id e) (f_ids f)) then false
    else if negb (listed zmem (ev_kind e) (f_kinds f)) then false
    else if negb (listed smem (ev_pubkey e) (f_authors f)) then false
    else tags_loop (f_tags f) e
  end.

(** filter.go:55-69 *)
Definition filter_matches (f : nfilter) (ev : option event) : bool :=
  if negb (matches_ignoring_time f ev) then false
  else match ev with
       | None => false (* unreachable: line 72 has already returned *)
       | Some e =>
         if match f_since f with Some s => (ev_created_at e <? s)%Z | None => false end then false
         else if match f_until f with Some u => (u <? ev_created_at e)%Z | None => false end then false
         else true
       end.

(** filter.go:32-39 and 41-48 *)
Fixpoint filters_match (fs : list nfilter) (ev : option event) : bool :=
  match fs with
  | [] => false
  | f :: fs' => if filter_matches f ev then true else filters_match fs' ev
  end.
Fixpoint filters_match_ignoring_time (fs : list nfilter) (ev : option event) : bool :=
  match fs with
  | [] => false
  | f :: fs' => if matches_ignoring_time f ev then true else filters_match_ignoring_time fs' ev
  end.

(** helpers.go:31-50; nil and empty slices both have length 0 *)
Definition oslice {A} (o : option (list A)) : list A := match o with Some l => l | None => [] end.
Fixpoint similar_loop {A} (eqb : A -> A -> bool) (l bs : list A) : bool :=
  match l with
  | [] => true
  | a :: l' => if existsb (fun b => eqb b a) bs then similar_loop eqb l' bs else false
  end.
Definition similar {A} (eqb : A -> A -> bool) (l bs : option (list A)) : bool :=
  if negb (Nat.eqb (length (oslice l)) (length (oslice bs))) then false
  else similar_loop eqb (oslice l) (oslice bs).

(** helpers.go:92-100 *)
Definition ptr_equal (a b : option Z) : bool :=
  match a, b with
  | None, None => true
  | Some x, Some y => (x =? y)%Z
  | _, _ => false
  end.

(** filter.go:114-122 *)
Fixpoint filter_equal_tags (m bm : list (str * option (list str))) : bool :=
  match m with
  | [] => true
  | (k, av) :: m' =>
    match assoc k bm with
    | None => false
    | Some bv => if negb (similar seqb av bv) then false else filter_equal_tags m' bm
    end
  end.

(** filter.go:97-141 *)
Definition filter_equal (a b : nfilter) : bool :=
  if negb (similar Z.eqb (f_kinds a) (f_kinds b)) then false
  else if negb (similar seqb (f_ids a) (f_ids b)) then false
  else if negb (similar seqb (f_authors a) (f_authors b)) then false
  else if negb (Nat.eqb (length (f_tags a)) (length (f_tags b))) then false
  else if negb (filter_equal_tags (f_tags a) (f_tags b)) then false
  else if negb (ptr_equal (f_since a) (f_since b)) then false
  else if negb (ptr_equal (f_until a) (f_until b)) then false
  else if negb (seqb (f_search a) (f_search b)) then false
  else if negb (Bool.eqb (f_limit_zero a) (f_limit_zero b)) then false
  else true.

Definition olen {A} (o : option (list A)) : Z := Z.of_nat (length (oslice o)).

(** filter.go:179-215; int overflow of the products is not modelled *)
Definition theoretical_limit (f : nfilter) : Z :=
  if (0 <? olen (f_ids f))%Z then olen (f_ids f)
  else if (olen (f_kinds f) =? 0)%Z then -1
  else if (0 <? olen (f_authors f))%Z then
    if forallb is_replaceable_kind (oslice (f_kinds f)) then (olen (f_authors f) * olen (f_kinds f))%Z
    else
      let d := match assoc (B "d") (f_tags f) with Some o => o | None => None end in
      if (0 <? olen d)%Z then
        if forallb is_addressable_kind (oslice (f_kinds f))
        then (olen (f_authors f) * olen (f_kinds f) * olen d)%Z
        else -1
      else -1
  else -1.
