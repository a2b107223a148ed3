(** Small readers of tags: /repo/nip14/subject.go, /repo/nip31/nip31.go, /repo/nip40/nip40.go, /repo/nip70/nip70.go, /repo/nip92/imeta.go. *)
From Verif Require Import Base EventModel JsonSpec.
Import ListNotations.
Local Open Scope nat_scope.

(** nip14/subject.go:5-12, nip31/nip31.go:5-12: the value of the first tag with this name and a value, or "" *)
Fixpoint first_value (name : str) (tags : list tag) : str :=
  match tags with
  | [] => []
  | (k :: v :: _) :: r => if seqb k name then v else first_value name r
  | _ :: r => first_value name r
  end.
Definition get_subject := first_value (B "subject").
Definition get_alt (e : event) := first_value (B "alt") (ev_tags e).
(** nip40/nip40.go:11-22 *)
Fixpoint get_expiration (tags : list tag) : Z :=
  match tags with
  | [] => (-1)%Z
  | (k :: v :: _) :: r => if seqb k (B "expiration") then match parse_int v with Some ts => ts | None => (-1)%Z end else get_expiration r
  | _ :: r => get_expiration r
  end.

(** nip70/nip70.go:9-16 *)
Definition is_protected (e : event) : bool := existsb (fun t => match t with [x] => seqb x (B "-") | _ => false end) (ev_tags e).
(** nip70/nip70.go:18-29 *)
Definition tags_key : str := B """tags"":[".
Definition dash : str := B "[""-""]".
Definition has_embedded_protected (e : event) : bool :=
  if (ev_kind e =? 6)%Z || (ev_kind e =? 16)%Z then
    match index (ev_content e) tags_key, index (ev_content e) (B "]]"), index (ev_content e) dash with
    | Some tidx, Some eidx, Some pidx => Nat.ltb tidx pidx && Nat.ltb pidx eidx
    | _, _, _ => false
    end
  else false.

(** nip92/imeta.go:21-27. Width and Height are ints of 64 bits; strconv.Atoi. *)
Record imeta := mkIMeta { im_url : str; im_blurhash : str; im_width : Z; im_height : Z; im_alt : str }.
Definition no_imeta : imeta := mkIMeta [] [] 0 0 [].
(** strings.Index(s, sep) for one byte, and the two parts around it *)
Fixpoint cut_at (c : ascii) (s : str) : option (str * str) :=
  match s with [] => None | x :: r => if ceqb x c then Some ([], r) else match cut_at c r with Some (a, b) => Some (x :: a, b) | None => None end end.
(** nip92/imeta.go:34-63, one item; None is the return nil *)
Definition imeta_item (m : imeta) (item : str) : option imeta :=
  match cut_at " "%char item with
  | None => Some m
  | Some (k, v) =>
    if seqb k (B "url") then Some (mkIMeta v (im_blurhash m) (im_width m) (im_height m) (im_alt m))
    else if seqb k (B "alt") then Some (mkIMeta (im_url m) (im_blurhash m) (im_width m) (im_height m) v)
    else if seqb k (B "blurhash") then Some (mkIMeta (im_url m) v (im_width m) (im_height m) (im_alt m))
    else if seqb k (B "dim") then
      match cut_at "x"%char v with
      | None => None
      | Some (a, b) =>
        match parse_int a with
        | None => None
        | Some x => match parse_int b with None => None | Some y => Some (mkIMeta (im_url m) (im_blurhash m) x y (im_alt m)) end
        end
      end
    else Some m
  end.
Fixpoint imeta_items (m : imeta) (l : list str) : option imeta :=
  match l with [] => Some m | x :: r => match imeta_item m x with None => None | Some m' => imeta_items m' r end end.
(** nip92/imeta.go:29-77; the nil slice is the empty list *)
Fixpoint imeta_loop (tags : list tag) : option (list imeta) :=
  match tags with
  | [] => Some []
  | t :: r =>
    match t with
    | k :: (_ :: _ :: _) as t' =>
      if seqb k (B "imeta") then
        match imeta_items no_imeta (tl t) with
        | None => None
        | Some m => match imeta_loop r with None => None | Some l => Some (m :: l) end
        end
      else imeta_loop r
    | _ => imeta_loop r
    end
  end.
Definition parse_imeta (tags : list tag) : list imeta := match imeta_loop tags with Some l => l | None => [] end.
(** nip92/imeta.go:12-19 *)
Definition imeta_get (l : list imeta) (url : str) : option imeta := find (fun m => seqb (im_url m) url) l.
