(** C104: set reconciliation with a limit on the size of messages. *)
From Verif Require Import Base Nip19Model NegModel NegProofs NegProtocol Props_Neg NegFrameProofs.
Import ListNotations.
Local Open Scope Z_scope.

(** What a vector may hold: Insert panics on ids of another length. *)
Definition inserted (l : list item) : Prop := forall x, In x l -> length (it_id x) = 64%nat.
Lemma inserted_ids l : inserted l -> ids64 l. Proof. intro H. apply Forall_forall, H. Qed.

(** Messages are hexadecimal: two characters to the byte. *)
Definition bytes_of_message (m : str) : Z := Z.of_nat (length m) / 2.

(** Which limits there are: none for zero, at least 4096 otherwise; anything less crashes. *)
Theorem C104_limits limit : new_limit limit = if limit =? 0 then Ok None else if 4096 <=? limit then Ok (Some limit) else Panic.
Proof. unfold new_limit. destruct (limit =? 0); [reflexivity|]. destruct (Z.ltb_spec limit 4096), (Z.leb_spec 4096 limit); first [reflexivity|lia]. Qed.
Print Assumptions C104_limits.
Example C104_limits_example : new_limit 0 = Ok None /\ new_limit 4095 = Panic /\ new_limit 4096 = Ok (Some 4096) /\ new_limit (-1) = Panic.
Proof. repeat split. Qed.

(** The first message is small whatever the storage holds. *)
Theorem C104_start sha items m : inserted items -> start sha items = Ok m -> bytes_of_message m <= 1600.
Proof. intros H E. apply start_len in E; [|apply inserted_ids, H]. apply Z.div_le_upper_bound; lia. Qed.
Print Assumptions C104_start.

Lemma reconcile_aux_len sha items L client msg out h hn : ids64 items -> 400 <= L -> reconcile_aux sha items (Some L) client msg = Ok (out, h, hn) ->
  Z.of_nat (length out) <= 2 * L + Z.of_nat (length msg) /\
  (client = true \/ Forall short (bounds_in (length msg - 2) 0 (skipn 2 msg)) -> Z.of_nat (length out) <= 2 * L).
Proof.
  intros W HL. unfold reconcile_aux. destruct (read_hex_byte msg) as [[pv r]| |] eqn:R; try discriminate. cbn [obind].
  assert (E : r = skipn 2 msg). { unfold read_hex_byte in R. destruct msg as [|a [|b m]]; try discriminate. destruct (hex_val a); [|discriminate]. destruct (hex_val b); [|discriminate]. injection R as _ <-. reflexivity. }
  assert (LR : length r = (length msg - 2)%nat) by (rewrite E, skipn_length; lia).
  destruct (negb _).
  - destruct client; [discriminate|]. intro H. assert (out = write_byte protocol_version) as -> by congruence. rewrite write_byte_len. lia.
  - destruct (reconcile_loop _ _ _ _ _ _ _) as [st| |] eqn:RL; try discriminate. cbn [obind]. intro H. assert (out = n_full st) as -> by congruence.
    apply loop_len in RL; [|exact W|exact HL|cbn [n_full]; rewrite write_byte_len; lia].
    destruct RL as [R1 R2]. cbn [n_prev_bound zero_bound it_id length n_in] in *. split; [lia|].
    intros [Q|Q]; apply R2; [left; exact Q|right]. split; [unfold short; cbn; lia|]. rewrite LR, E. exact Q.
Qed.

Lemma reconcile_len sha items L client msg out h hn closed : ids64 items -> 400 <= L -> reconcile sha items (Some L) client msg = Ok (out, h, hn, closed) ->
  Z.of_nat (length out) <= 2 * L + Z.of_nat (length msg) /\
  (client = true \/ Forall short (bounds_in (length msg - 2) 0 (skipn 2 msg)) -> Z.of_nat (length out) <= 2 * L).
Proof.
  intros W HL. unfold reconcile. destruct (reconcile_aux _ _ _ _ _) as [[[o h1] hn1]| |] eqn:R; try discriminate. cbn [obind].
  apply reconcile_aux_len in R; [|exact W|exact HL]. destruct (_ && _); intro H.
  - assert (out = []) as -> by congruence. cbn [length]. lia.
  - assert (out = o) as -> by congruence. exact R.
Qed.

(** The client's messages never exceed the limit, whatever the relay sends. *)
Theorem C104_client_frames sha items limit L msg out h hn closed : inserted items -> new_limit limit = Ok (Some L) ->
  reconcile sha items (Some L) true msg = Ok (out, h, hn, closed) -> bytes_of_message out <= limit.
Proof.
  intros W N R. unfold new_limit in N. destruct (limit =? 0); [discriminate|]. destruct (Z.ltb_spec limit 4096); [discriminate|]. injection N as <-.
  apply reconcile_len in R; [|apply inserted_ids, W|lia]. destruct R as [_ R]. specialize (R (or_introl eq_refl)). apply Z.div_le_upper_bound; lia.
Qed.
Print Assumptions C104_client_frames.

(** The server's stay within it when the bounds in the client's message are at most one id long, as they are in every
    message that the library writes. *)
Theorem C104_server_frames_partial sha items limit L msg out h hn closed : inserted items -> new_limit limit = Ok (Some L) ->
  Forall (fun b => (length (it_id b) <= 64)%nat) (bounds_in (length msg - 2) 0 (skipn 2 msg)) ->
  reconcile sha items (Some L) false msg = Ok (out, h, hn, closed) -> bytes_of_message out <= limit.
Proof.
  intros W N F R. unfold new_limit in N. destruct (limit =? 0); [discriminate|]. destruct (Z.ltb_spec limit 4096); [discriminate|]. injection N as <-.
  apply reconcile_len in R; [|apply inserted_ids, W|lia]. destruct R as [_ R]. specialize (R (or_intror F)). apply Z.div_le_upper_bound; lia.
Qed.
Print Assumptions C104_server_frames_partial.

(** In any case they exceed it by no more than the size of the message answered. *)
Theorem C104_server_frames_any sha items limit L msg out h hn closed : inserted items -> new_limit limit = Ok (Some L) ->
  reconcile sha items (Some L) false msg = Ok (out, h, hn, closed) -> bytes_of_message out <= limit + bytes_of_message msg + 1.
Proof.
  intros W N R. unfold new_limit in N. destruct (limit =? 0); [discriminate|]. destruct (Z.ltb_spec limit 4096); [discriminate|]. injection N as <-.
  apply reconcile_len in R; [|apply inserted_ids, W|lia]. destruct R as [R _]. unfold bytes_of_message.
  pose proof (Z.div_mod (Z.of_nat (length msg)) 2 ltac:(lia)). pose proof (Z.mod_pos_bound (Z.of_nat (length msg)) 2 ltac:(lia)).
  apply Z.div_le_upper_bound; lia.
Qed.
Print Assumptions C104_server_frames_any.

(** Instances: a server with 260 items answers the first message of a client with 32, and the answer nearly fills the frame. *)
Example C104_example : inserted lim_c /\ inserted lim_s /\
  match start first32 lim_c with
  | Ok m => forallb (fun b => (length (it_id b) <=? 64)%nat) (bounds_in (length m - 2) 0 (skipn 2 m)) = true /\
      match reconcile first32 lim_s (Some 4096) false m with Ok (out, _, _, _) => bytes_of_message out = 3700 | _ => False end
  | _ => False
  end.
Proof.
  assert (A : forall l, forallb (fun x => Nat.eqb (length (it_id x)) 64) l = true -> inserted l).
  { intros l H x Hx. rewrite forallb_forall in H. apply Nat.eqb_eq, H, Hx. }
  split; [apply A; vm_compute; reflexivity|]. split; [apply A; vm_compute; reflexivity|].
  vm_compute. split; reflexivity.
Qed.

(** Finding: bounds of any length are taken and sent back. A message of 5006 bytes makes a server with the limit 4096 answer
    with more than that. *)
Theorem C104_server_frames_refuted : exists msg,
  match reconcile first32 [] (Some 4096) false msg with Ok (out, _, _, _) => 4096 < bytes_of_message out | _ => False end.
Proof. exists (B "6101a708" ++ repeat "0"%char 10000 ++ B "0200"). vm_compute. reflexivity. Qed.
Print Assumptions C104_server_frames_refuted.

(** Finding: with a limit on both sides, ids get lost. When a range does not fit, both sides drop it and send the
    fingerprint of what follows its upper end, as if for everything from its lower end. If the client has nothing in the
    dropped range nor after it, and the server's answer to that does not fit either, the server sends the fingerprint of nothing, for
    the range where the client has nothing: equal. The client takes the range as done. Here each side has 623 items, 507 of
    them shared; with the limit 4096 twelve items of the server are never reported,
    and the session ends without an error. *)
Definition miss_c : list item := map (fun i => mkItem (4 * (Z.of_nat i + 1)) (demo_id (N.of_nat i))) (seq 0 623).
Definition miss_s : list item :=
  firstn 507 miss_c ++
  map (fun j => mkItem (2033 + 460 * Z.of_nat j / 96) (demo_id (10000 + N.of_nat j))) (seq 0 96) ++
  map (fun j => mkItem (2592 + Z.of_nat j) (demo_id (20000 + N.of_nat j))) (seq 0 20).
Definition lost (c s : list item) (havenots : list str) : list item :=
  filter (fun x => negb (smem (it_id x) (map it_id c)) && negb (smem (it_id x) havenots)) s.
Lemma lost_spec c s hn x : In x (lost c s hn) -> In x s /\ (forall y, In y c -> it_id y <> it_id x) /\ ~ In (it_id x) hn.
Proof.
  unfold lost. intro H. apply filter_In in H. destruct H as [H1 H2]. apply andb_prop in H2. destruct H2 as [H2 H3]. apply negb_true_iff in H2, H3.
  split; [exact H1|]. split.
  - intros y Hy E. assert (smem (it_id x) (map it_id c) = true) by (apply smem_In, in_map_iff; exists y; auto). congruence.
  - intro Q. apply smem_In in Q. congruence.
Qed.
Lemma lost_exists (o : outcome (list str * list str)) c s :
  match o with Ok (_, hn) => match lost c s hn with [] => false | _ => true end | _ => false end = true ->
  match o with Ok (_, hn) => exists x, In x s /\ (forall y, In y c -> it_id y <> it_id x) /\ ~ In (it_id x) hn | _ => False end.
Proof.
  destruct o as [[h hn]| |]; try discriminate. destruct (lost c s hn) as [|x l] eqn:L; [discriminate|]. intros _. exists x.
  apply lost_spec. rewrite L. left. reflexivity.
Qed.
Theorem C104_complete_refuted : exists c s,
  storable c /\ storable s /\ new_limit 4096 = Ok (Some 4096) /\
  match session first32 100 (Some 4096) (Some 4096) (seal c) (seal s) with
  | Ok (_, havenots) => exists x, In x s /\ (forall y, In y c -> it_id y <> it_id x) /\ ~ In (it_id x) havenots
  | _ => False
  end.
Proof.
  assert (A : storableb miss_c = true) by (vm_cast_no_check (eq_refl true)).
  assert (D : storableb miss_s = true) by (vm_cast_no_check (eq_refl true)).
  exists miss_c, miss_s. split; [exact (proj1 (storableb_ok _ A))|]. split; [exact (proj1 (storableb_ok _ D))|]. split; [reflexivity|].
  apply lost_exists. vm_cast_no_check (eq_refl true).
Qed.
Print Assumptions C104_complete_refuted.
