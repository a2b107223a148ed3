(** Proofs about the stores. *)
From Verif Require Import Base Machine FilterModel Nip19Model StoreModel.
Import ListNotations.

(** Association lists. *)
Lemma assoc_mset {V} k k' (v : V) m : assoc k (mset k' v m) = if seqb k k' then Some v else assoc k m.
Proof.
  induction m as [|[a w] m IH]; cbn [mset assoc].
  - destruct (seqb k k'); reflexivity.
  - destruct (seqb_spec k' a) as [->|N]; cbn [assoc].
    + destruct (seqb k a); reflexivity.
    + destruct (seqb_spec k a) as [->|N2]; [|exact IH]. destruct (seqb_spec a k') as [->|_]; [congruence|reflexivity].
Qed.
Lemma mset_keys {V} k k' (v : V) m : In k (map fst (mset k' v m)) <-> k = k' \/ In k (map fst m).
Proof.
  induction m as [|[a w] m IH]; cbn [mset map fst In]; [intuition congruence|].
  destruct (seqb_spec k' a) as [->|N]; cbn [map fst In]; [|rewrite IH]; intuition congruence.
Qed.
Lemma mset_nodup {V} k (v : V) m : NoDup (map fst m) -> NoDup (map fst (mset k v m)).
Proof.
  induction m as [|[a w] m IH]; intro N; cbn [mset map fst] in *; [constructor; [intros []|constructor]|].
  inversion N as [|x l N1 N2]; subst. destruct (seqb_spec k a) as [->|NE]; cbn [map fst]; constructor; auto.
  rewrite mset_keys. intros [->|Q]; congruence.
Qed.
Lemma assoc_none {V} k (m : list (str * V)) : assoc k m = None <-> ~ In k (map fst m).
Proof.
  induction m as [|[a w] m IH]; cbn [assoc map fst In]; [tauto|]. destruct (seqb_spec k a) as [->|N]; [split; [discriminate|tauto]|].
  rewrite IH. intuition congruence.
Qed.
Lemma assoc_in {V} k (v : V) m : assoc k m = Some v -> In (k, v) m.
Proof. induction m as [|[a w] m IH]; cbn [assoc]; [discriminate|]. destruct (seqb_spec k a) as [->|N]; [intro Q; injection Q as ->; left; reflexivity|intro Q; right; auto]. Qed.
Lemma in_assoc {V} k (v : V) m : NoDup (map fst m) -> In (k, v) m -> assoc k m = Some v.
Proof.
  induction m as [|[a w] m IH]; cbn [assoc map fst]; intros N H; [destruct H|]. inversion N as [|x l N1 N2]; subst.
  destruct H as [H|H]; [injection H as -> ->; rewrite seqb_refl; reflexivity|]. destruct (seqb_spec k a) as [->|NE]; [|auto].
  exfalso. apply N1. apply (in_map fst) in H. exact H.
Qed.
Lemma mdel_keys {V} k k' (m : list (str * V)) : In k (map fst (mdel k' m)) -> In k (map fst m).
Proof. induction m as [|[a w] m IH]; cbn [mdel map fst In]; [tauto|]. destruct (seqb k' a); cbn [map fst In]; tauto. Qed.
Lemma mdel_nodup {V} k (m : list (str * V)) : NoDup (map fst m) -> NoDup (map fst (mdel k m)).
Proof.
  induction m as [|[a w] m IH]; intro N; cbn [mdel map fst] in *; [exact N|]. inversion N as [|x l N1 N2]; subst.
  destruct (seqb k a); cbn [map fst]; [exact N2|]. constructor; auto. intro Q. apply mdel_keys in Q. auto.
Qed.
Lemma assoc_mdel {V} k k' (m : list (str * V)) : NoDup (map fst m) -> assoc k (mdel k' m) = if seqb k k' then None else assoc k m.
Proof.
  induction m as [|[a w] m IH]; intro N; cbn [mdel assoc map fst] in *; [destruct (seqb k k'); reflexivity|]. inversion N as [|x l N1 N2]; subst.
  destruct (seqb_spec k' a) as [->|NE].
  - destruct (seqb_spec k a) as [->|N3]; [apply assoc_none; exact N1|reflexivity].
  - cbn [assoc]. rewrite IH by exact N2. destruct (seqb_spec k a) as [->|N3]; [|reflexivity]. destruct (seqb_spec a k') as [->|_]; congruence.
Qed.
Lemma mset_in {V} x k (v : V) m : In x (mset k v m) -> x = (k, v) \/ In x m.
Proof. induction m as [|[a w] m IH]; cbn [mset]; [intros [<-|[]]; auto|]. destruct (seqb k a); intros [<-|H]; cbn [In]; auto. apply IH in H. tauto. Qed.
Lemma mdel_in {V} x k (m : list (str * V)) : In x (mdel k m) -> In x m.
Proof. induction m as [|[a w] m IH]; cbn [mdel]; [auto|]. destruct (seqb k a); cbn [In]; [auto|]. intros [<-|H]; auto. Qed.

(** ** The memory store against one key at a time. *)
Definition spec_step (k : str) (o : kop) (v : list str * option str) : list str * option str :=
  let '(bufs, old) := v in
  match o with
  | KNew b => (bufs ++ [b], old)
  | KWrite (Caller n) b => (upd bufs n b, old)
  | KSet k' None => (bufs, if seqb k k' then None else old)
  | KSet k' (Some (Caller n)) => (bufs, if seqb k k' then Some (nth n bufs []) else old)
  | KDelete k' => (bufs, if seqb k k' then None else old)
  | KUpdate k' f => (bufs, if seqb k k' then match f old with UNoOp | UErr | USame => old | UNil => None | UNew b => Some b end else old)
  | _ => v
  end.
Definition spec_view (k : str) (ops : list kop) : list str * option str := fold_left (fun v o => spec_step k o v) ops ([], None).
Definition allowed (o : kop) (s : kstate) : Prop :=
  match o with
  | KWrite a _ => forall m, k_data s = Some m -> ~ In (Some a) (map snd m)
  | KSet _ (Some (Own _)) => False
  | KSet _ (Some (Caller n)) => n < length (h_caller (k_heap s))
  | KClose => False
  | _ => True
  end.
Fixpoint clean (ops : list kop) (s : kstate) : Prop :=
  match ops with [] => True | o :: r => allowed o s /\ forall x s1, kv_step o s = Ok (x, s1) -> clean r s1 end.
Definition slice_ok (h : heap) (s : slice) : Prop := match s with None => True | Some (Caller n) => n < length (h_caller h) | Some (Own n) => n < length (h_own h) end.
Record KInv (f : str -> list str * option str) (s : kstate) : Prop := mkKI {
  ki_data : exists m, k_data s = Some m /\ NoDup (map fst m) /\ forall k v, In (k, v) m -> slice_ok (k_heap s) v;
  ki_bufs : forall k, fst (f k) = h_caller (k_heap s);
  ki_val : forall k, snd (f k) = contents (k_heap s) (kget (k_data s) k)
}.
Lemma nth_grow {X} (l m : list X) n d : n < length l -> nth n (l ++ m) d = nth n l d. Proof. intro H. apply app_nth1. exact H. Qed.
Lemma nth_upd_ne {X} (l : list X) i j x d : i <> j -> nth j (upd l i x) d = nth j l d.
Proof.
  intro N. destruct (Nat.lt_ge_cases j (length l)) as [L|L].
  - apply nth_error_nth. rewrite nth_upd_other by exact N. apply nth_error_nth'. exact L.
  - rewrite !nth_overflow; [reflexivity|exact L|rewrite upd_length; exact L].
Qed.
Lemma kget_spec m k : kget (Some m) k = match assoc k m with Some v => v | None => None end. Proof. reflexivity. Qed.
Lemma kv_inv_step f o s : KInv f s -> allowed o s -> exists x s1, kv_step o s = Ok (x, s1) /\ KInv (fun k => spec_step k o (f k)) s1.
Proof.
  intros [(m & D & ND & OKS) HB HV] A. destruct s as [h d]. cbn [k_heap k_data] in *. subst d.
  assert (DEL : forall k0, KInv (fun k => (fst (f k), if seqb k k0 then None else snd (f k))) (mkKV h (Some (mdel k0 m)))).
  { intro k0. constructor; cbn [k_heap k_data fst snd]; [exists (mdel k0 m); split; [reflexivity|]; split; [apply mdel_nodup, ND|]; intros k v H; apply mdel_in in H; eauto|exact HB|].
    intro k. rewrite kget_spec, assoc_mdel by exact ND. rewrite HV, kget_spec. destruct (seqb k k0); reflexivity. }
  assert (SETS : forall k0 v h', slice_ok h' v -> (forall x, slice_ok h x -> slice_ok h' x) -> (forall x, slice_ok h x -> contents h' x = contents h x) -> h_caller h' = h_caller h ->
    KInv (fun k => (fst (f k), if seqb k k0 then contents h' v else snd (f k))) (mkKV h' (Some (mset k0 v m)))).
  { intros k0 v h' V1 V2 V3 V4. constructor; cbn [k_heap k_data fst snd].
    - exists (mset k0 v m). split; [reflexivity|]. split; [apply mset_nodup, ND|]. intros k w H. apply mset_in in H as [H|H]; [injection H as -> ->; exact V1|]. apply V2. eauto.
    - intro k. rewrite HB, V4. reflexivity.
    - intro k. rewrite kget_spec, assoc_mset, HV, kget_spec. destruct (seqb k k0); [reflexivity|]. destruct (assoc k m) as [w|] eqn:E; [|reflexivity].
      symmetry. apply V3. eapply OKS. apply assoc_in. exact E. }
  assert (EXT : forall (g g' : str -> list str * option str) s, KInv g s -> (forall k, g k = g' k) -> KInv g' s).
  { intros g g' s [Q1 Q2 Q3] E. constructor; [exact Q1| |]; intro k; rewrite <- E; auto. }
  assert (SAME : KInv f (mkKV h (Some m))) by (constructor; cbn; eauto).
  destruct o as [b|a b|k0|k0 v|k0|k0 g|]; cbn [kv_step k_heap k_data allowed] in *.
  - do 2 eexists. split; [reflexivity|]. constructor; cbn [k_heap k_data h_caller h_own].
    + exists m. split; [reflexivity|]. split; [exact ND|]. intros k v H. apply OKS in H. destruct v as [[n|n]|]; cbn in *; auto. rewrite app_length. lia.
    + intro k. specialize (HB k). destruct (f k). cbn in *. subst. reflexivity.
    + intro k. specialize (HV k). destruct (f k) as [u w]. cbn [spec_step snd] in *. rewrite HV, kget_spec. destruct (assoc k m) as [[[n|n]|]|] eqn:E; try reflexivity. cbn. rewrite nth_grow; [reflexivity|]. exact (OKS _ _ (assoc_in _ _ _ E)).
  - destruct a as [n|n]; do 2 eexists; (split; [reflexivity|]); constructor; cbn [k_heap k_data h_caller h_own].
    1,4: exists m; split; [reflexivity|]; split; [exact ND|]; intros k v H; apply OKS in H; destruct v as [[i|i]|]; cbn in *; rewrite ?upd_length; auto.
    + intro k. specialize (HB k). destruct (f k). cbn in *. subst. reflexivity.
    + intro k. specialize (HV k). destruct (f k) as [u w]. cbn [spec_step snd] in *. rewrite HV, kget_spec. destruct (assoc k m) as [[[i|i]|]|] eqn:E; try reflexivity. cbn. rewrite nth_upd_ne; [reflexivity|]. intros ->. apply (A m eq_refl). apply assoc_in in E. apply (in_map snd) in E. exact E.
    + intro k. specialize (HB k). destruct (f k). cbn in *. exact HB.
    + intro k. specialize (HV k). destruct (f k) as [u w]. cbn [spec_step snd] in *. rewrite HV, kget_spec. destruct (assoc k m) as [[[i|i]|]|] eqn:E; try reflexivity. cbn. rewrite nth_upd_ne; [reflexivity|]. intros ->. apply (A m eq_refl). apply assoc_in in E. apply (in_map snd) in E. exact E.
  - do 2 eexists. split; [reflexivity|]. apply (EXT f); [exact SAME|]. intro k. cbv beta. destruct (f k); reflexivity.
  - do 2 eexists. split; [reflexivity|]. destruct v as [[n|n]|]; [|destruct A|].
    + eapply EXT; [apply (SETS k0 (Some (Caller n)) h); auto|]. intro k. cbv beta. specialize (HB k). destruct (f k) as [u w]. cbn in *. subst u. reflexivity.
    + eapply EXT; [apply (SETS k0 None h); cbn; auto|]. intro k. cbv beta. destruct (f k) as [u w]. cbn. reflexivity.
  - do 2 eexists. split; [reflexivity|]. eapply EXT; [apply DEL|]. intro k. cbv beta. destruct (f k) as [u w]. reflexivity.
  - assert (OLD : forall k, seqb k k0 = true -> contents h (kget (Some m) k0) = snd (f k)) by (intros k Q; apply seqb_eq in Q; subst k; symmetry; apply HV).
    destruct (g (contents h (kget (Some m) k0))) as [| | |b|] eqn:G.
    + do 2 eexists. split; [reflexivity|]. eapply EXT; [exact SAME|]. intro k. cbv beta. specialize (OLD k). destruct (f k) as [u w]. cbn [spec_step snd] in *. destruct (seqb k k0); [|reflexivity]. rewrite <- OLD, G by reflexivity. rewrite OLD by reflexivity. reflexivity.
    + do 2 eexists. split; [reflexivity|]. eapply EXT; [exact SAME|]. intro k. cbv beta. specialize (OLD k). destruct (f k) as [u w]. cbn [spec_step snd] in *. destruct (seqb k k0); [|reflexivity]. rewrite <- OLD, G by reflexivity. rewrite OLD by reflexivity. reflexivity.
    + do 2 eexists. split; [reflexivity|]. eapply EXT; [apply DEL|]. intro k. cbv beta. specialize (OLD k). destruct (f k) as [u w]. cbn [spec_step fst snd] in *. destruct (seqb k k0); [|reflexivity]. rewrite <- OLD, G by reflexivity. reflexivity.
    + do 2 eexists. split; [reflexivity|]. eapply EXT; [apply (SETS k0 (Some (Own (length (h_own h)))) (mkHeap (h_caller h) (h_own h ++ [b])))|].
      * cbn. rewrite app_length. cbn. lia.
      * intros [[i|i]|]; cbn; auto. rewrite app_length. lia.
      * intros [[i|i]|]; cbn; auto. intro L. rewrite nth_grow by exact L. reflexivity.
      * reflexivity.
      * intro k. cbv beta. specialize (OLD k). destruct (f k) as [u w]. cbn [spec_step fst snd contents h_own] in *. destruct (seqb k k0); [|reflexivity]. rewrite <- OLD, G by reflexivity. rewrite app_nth2, Nat.sub_diag by lia. reflexivity.
    + assert (KG : forall a, kget (Some m) k0 = Some a -> slice_ok h (Some a)).
      { intros a Q. rewrite kget_spec in Q. destruct (assoc k0 m) as [w|] eqn:E; [|discriminate]. subst w. eapply OKS, assoc_in, E. }
      destruct (kget (Some m) k0) as [a|] eqn:KG0.
      * do 2 eexists. split; [reflexivity|]. eapply EXT; [apply (SETS k0 (Some a) h); auto|]. intro k. cbv beta. specialize (OLD k). destruct (f k) as [u w]. cbn [spec_step fst snd] in *. destruct (seqb k k0); [|reflexivity]. rewrite <- OLD, G by reflexivity. reflexivity.
      * do 2 eexists. split; [reflexivity|]. eapply EXT; [apply DEL|]. intro k. cbv beta. specialize (OLD k). destruct (f k) as [u w]. cbn [spec_step fst snd] in *. destruct (seqb k k0); [|reflexivity]. rewrite <- OLD, G by reflexivity. reflexivity.
  - destruct A.
Qed.
Lemma kv_run_spec ops : forall f s, KInv f s -> clean ops s -> exists xs s', kv_run ops s = Ok (xs, s') /\ KInv (fun k => fold_left (fun v o => spec_step k o v) ops (f k)) s'.
Proof.
  induction ops as [|o ops IH]; intros f s I C; cbn [kv_run fold_left]; [exists [], s; split; [reflexivity|exact I]|].
  destruct C as [A C]. destruct (kv_inv_step f o s I A) as (x & s1 & E & I1). rewrite E. cbn [obind]. destruct (IH _ s1 I1 (C _ _ E)) as (xs & s2 & E2 & I2). rewrite E2. cbn [obind]. eexists _, _. split; [reflexivity|exact I2].
Qed.
Lemma kv_inv_init : KInv (fun _ => ([], None)) kv_init.
Proof. constructor; cbn; auto. exists []. split; [reflexivity|]. split; [constructor|]. intros k v []. Qed.

(** ** The stores on disk. *)
Definition disk_allowed (o : kop) : Prop := match o with KSet _ (Some (Caller _)) => True | KSet _ _ => False | _ => True end.
Record DInv (f : str -> list str * option str) (s : dstate) : Prop := mkDI {
  di_nodup : NoDup (map fst (d_data s)); di_bufs : forall k, fst (f k) = d_caller s; di_val : forall k, snd (f k) = assoc k (d_data s) }.
Lemma disk_del_assoc strict k k0 m : NoDup (map fst m) -> assoc k (snd (disk_del strict k0 m)) = if seqb k k0 then None else assoc k m.
Proof.
  intro N. unfold disk_del. destruct (assoc k0 m) as [v|] eqn:E; cbn [snd]; [apply assoc_mdel, N|]. destruct (seqb_spec k k0) as [->|_]; [exact E|reflexivity].
Qed.
Lemma disk_del_nodup strict k m : NoDup (map fst m) -> NoDup (map fst (snd (disk_del strict k m))).
Proof. intro N. unfold disk_del. destruct (assoc k m); cbn [snd]; [apply mdel_nodup, N|exact N]. Qed.
Lemma disk_inv_step strict f o s : DInv f s -> disk_allowed o -> DInv (fun k => spec_step k o (f k)) (snd (disk_step strict o s)).
Proof.
  intros [ND HB HV] A. destruct s as [bufs m]. cbn [d_caller d_data] in *.
  destruct o as [b|[n|n] b|k0|k0 [[n|n]|]|k0|k0 g|]; cbn [disk_step snd d_caller d_data] in *; try destruct A.
  1,2,3,4,8: constructor; cbn [d_caller d_data]; [exact ND| |]; intro k; specialize (HB k); specialize (HV k); destruct (f k) as [u w]; cbn [spec_step fst snd] in *; subst; reflexivity.
  - constructor; cbn [d_caller d_data]; [apply mset_nodup, ND| |]; intro k; specialize (HB k); specialize (HV k); destruct (f k) as [u w]; cbn [spec_step fst snd] in *; subst; rewrite ?assoc_mset; reflexivity.
  - destruct (disk_del strict k0 m) as [ok m'] eqn:E. cbn [snd]. assert (M : m' = snd (disk_del strict k0 m)) by (rewrite E; reflexivity). subst m'.
    constructor; cbn [d_caller d_data]; [apply disk_del_nodup, ND| |]; intro k; specialize (HB k); specialize (HV k); destruct (f k) as [u w]; cbn [spec_step fst snd] in *; subst; rewrite ?disk_del_assoc by exact ND; reflexivity.
  - assert (OLD : forall k, seqb k k0 = true -> assoc k0 m = snd (f k)) by (intros k Q; apply seqb_eq in Q; subst k; symmetry; apply HV).
    assert (DEL : g (assoc k0 m) = UNil \/ (g (assoc k0 m) = USame /\ assoc k0 m = None) -> DInv (fun k => spec_step k (KUpdate k0 g) (f k)) (snd (let '(ok, m') := disk_del strict k0 m in (if ok then KDone else KFailed, mkDisk bufs m')))).
    { intro G. destruct (disk_del strict k0 m) as [ok m'] eqn:E. cbn [snd]. assert (M : m' = snd (disk_del strict k0 m)) by (rewrite E; reflexivity). subst m'.
      constructor; cbn [d_caller d_data]; [apply disk_del_nodup, ND| |]; intro k; specialize (HB k); specialize (HV k); specialize (OLD k); destruct (f k) as [u w]; cbn [spec_step fst snd] in *; subst u; rewrite ?disk_del_assoc by exact ND; [reflexivity|].
      destruct (seqb k k0); [|congruence]. rewrite <- OLD by reflexivity. destruct G as [G|[G G2]]; rewrite G; [reflexivity|exact G2]. }
    destruct (g (assoc k0 m)) as [| | |b|] eqn:G; [| |apply DEL; auto| |destruct (assoc k0 m) as [b|] eqn:E0; [|apply DEL; auto]]; cbn [snd];
    (constructor; cbn [d_caller d_data]; [first [exact ND|apply mset_nodup, ND]| |]); intro k; specialize (HB k); specialize (HV k); specialize (OLD k); destruct (f k) as [u w]; cbn [spec_step fst snd] in *; subst u; rewrite ?assoc_mset; try reflexivity;
      (destruct (seqb k k0) eqn:EK; [|congruence]); rewrite <- OLD by reflexivity; rewrite G; try reflexivity; rewrite OLD by reflexivity; exact HV.
Qed.
Lemma disk_run_spec strict ops : forall f s, DInv f s -> Forall disk_allowed ops -> DInv (fun k => fold_left (fun v o => spec_step k o v) ops (f k)) (snd (disk_run strict ops s)).
Proof.
  induction ops as [|o ops IH]; intros f s I A; cbn [disk_run fold_left]; [exact I|]. inversion A as [|x l A1 A2]; subst.
  pose proof (disk_inv_step strict f o s I A1) as I1. destruct (disk_step strict o s) as [x s1]. cbn [snd] in I1. specialize (IH _ _ I1 A2). destruct (disk_run strict ops s1) as [xs s2]. exact IH.
Qed.
Lemma disk_inv_init : DInv (fun _ => ([], None)) disk_init.
Proof. constructor; cbn; auto. constructor. Qed.
