(** Tags: /repo/tags.go. nil and empty tag lists are not told apart; a nil *Tag result
    is None. *)
From Verif Require Import Base EventModel.

(** tags.go:21-25: the elements before the last one must be equal *)
Fixpoint init_equal (n : nat) (p t : tag) : bool :=
  match n, p, t with
  | S n', x :: p', y :: t' => if negb (seqb x y) then false else init_equal n' p' t'
  | _, _, _ => true
  end.

(** tags.go:14-28. With an empty prefix line 27 indexes tag[-1]: a panic. *)
Definition starts_with (t prefix : tag) : outcome bool :=
  let n := length prefix in
  if Nat.ltb (length t) n then Ok false
  else if negb (init_equal (n - 1) prefix t) then Ok false
  else match n with
       | O => Panic
       | S m => Ok (has_prefix (nth m t []) (nth m prefix []))
       end.

(** tags.go:31-44 *)
Definition tag_key (t : tag) : str := match t with x :: _ => x | [] => [] end.
Definition tag_value (t : tag) : str := match t with _ :: y :: _ => y | _ => [] end.

(** tags.go:57-64 *)
Fixpoint get_d (ts : list tag) : str :=
  match ts with
  | [] => []
  | t :: ts' => match t with
                | k :: v :: _ => if seqb k (B "d") then v else get_d ts'
                | _ => get_d ts'
                end
  end.

(** tags.go:67-74 *)
Fixpoint get_first (ts : list tag) (p : tag) : outcome (option tag) :=
  match ts with
  | [] => Ok None
  | t :: ts' => obind (starts_with t p) (fun b => if b then Ok (Some t) else get_first ts' p)
  end.

(** tags.go:77-85 *)
Definition get_last (ts : list tag) (p : tag) : outcome (option tag) := get_first (rev ts) p.

(** tags.go:88-96 *)
Fixpoint get_all (ts : list tag) (p : tag) : outcome (list tag) :=
  match ts with
  | [] => Ok []
  | t :: ts' => obind (starts_with t p) (fun b =>
                obind (get_all ts' p) (fun r => Ok (if b then t :: r else r)))
  end.

(** tags.go:112-120 *)
Fixpoint filter_out (ts : list tag) (p : tag) : outcome (list tag) :=
  match ts with
  | [] => Ok []
  | t :: ts' => obind (starts_with t p) (fun b =>
                obind (filter_out ts' p) (fun r => Ok (if b then r else t :: r)))
  end.

Fixpoint set_nth {A} (i : nat) (x : A) (l : list A) : list A :=
  match l, i with
  | [], _ => []
  | _ :: l', O => x :: l'
  | y :: l', S i' => y :: set_nth i' x l'
  end.

(** tags.go:123-134: the loop at index i over the slice; one unit of fuel per iteration. *)
Fixpoint filter_in_place_loop (fuel : nat) (i : nat) (ts : list tag) (p : tag) : outcome (list tag) :=
  match fuel with
  | O => Err
  | S f =>
    if Nat.ltb i (length ts) then
      obind (starts_with (nth i ts []) p) (fun b =>
        if b then
          let last := length ts - 1 in
          filter_in_place_loop f i (firstn last (set_nth i (nth last ts []) ts)) p
        else filter_in_place_loop f (S i) ts p)
    else Ok ts
  end.
Definition filter_out_in_place (ts : list tag) (p : tag) : outcome (list tag) :=
  filter_in_place_loop (S (length ts)) 0 ts p.

(** tags.go:137-147 *)
Definition append_unique (ts : list tag) (t : tag) : outcome (list tag) :=
  let n := if Nat.ltb 2 (length t) then 2 else length t in
  obind (get_first ts (firstn n t)) (fun r =>
    Ok (match r with None => ts ++ [t] | Some _ => ts end)).

(** tags.go:150-157 *)
Fixpoint find_tag (ts : list tag) (key : str) : option tag :=
  match ts with
  | [] => None
  | t :: ts' => match t with
                | k :: _ :: _ => if seqb k key then Some t else find_tag ts' key
                | _ => find_tag ts' key
                end
  end.

(** tags.go:160-170, the sequence yielded when the consumer never stops *)
Fixpoint find_all (ts : list tag) (key : str) : list tag :=
  match ts with
  | [] => []
  | t :: ts' => match t with
                | k :: _ :: _ => if seqb k key then t :: find_all ts' key else find_all ts' key
                | _ => find_all ts' key
                end
  end.

(** tags.go:173-180 *)
Fixpoint find_with_value (ts : list tag) (key value : str) : option tag :=
  match ts with
  | [] => None
  | t :: ts' => match t with
                | k :: v :: _ => if seqb v value && seqb k key then Some t else find_with_value ts' key value
                | _ => find_with_value ts' key value
                end
  end.

(** The loops "for i := len(tags)-1; i >= 0; i--" of tags.go:183-202: n is i+1. *)
Fixpoint find_last_loop (n : nat) (ts : list tag) (key : str) : option tag :=
  match n with
  | O => None
  | S i => match nth i ts [] with
           | (k :: _ :: _) as v => if seqb k key then Some v else find_last_loop i ts key
           | _ => find_last_loop i ts key
           end
  end.
Definition find_last (ts : list tag) (key : str) : option tag := find_last_loop (length ts) ts key.

Fixpoint find_last_value_loop (n : nat) (ts : list tag) (key value : str) : option tag :=
  match n with
  | O => None
  | S i => match nth i ts [] with
           | (k :: x :: _) as v => if seqb x value && seqb k key then Some v else find_last_value_loop i ts key value
           | _ => find_last_value_loop i ts key value
           end
  end.
Definition find_last_with_value (ts : list tag) (key value : str) : option tag :=
  find_last_value_loop (length ts) ts key value.

(** tags.go:205-225: each builds newArr and then returns nil (of type Tag). *)
Definition tag_clone (t : tag) : tag := [].
Definition tags_clone (ts : list tag) : tag := [].
Definition tags_clone_deep (ts : list tag) : tag := [].

(** tags.go:244-260 *)
Fixpoint contains_any (ts : list tag) (name : str) (values : list str) : bool :=
  match ts with
  | [] => false
  | t :: ts' => match t with
                | k :: v :: _ => if negb (seqb k name) then contains_any ts' name values
                                 else if smem v values then true else contains_any ts' name values
                | _ => contains_any ts' name values
                end
  end.
