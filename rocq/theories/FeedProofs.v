(** Proofs about the live feed: the steps as a relation. *)
From Verif Require Import Base Machine FilterModel EventModel Nip19Model Nip19Proofs StoreModel StoreProofs ListsModel FeedModel.
From Coq Require Import Permutation.
Import ListNotations.
Local Open Scope Z_scope.

Definition keep (a : author) (e : fev) := mkAu (au_pk a) (au_had a) (au_first a) (au_latest a) (au_oldest a) (au_serial a) (au_req a) (au_eosed a) (fe_id e :: au_ids a) (au_queue a ++ [e]) (au_seen a) (au_dropped a) (au_pending a) (au_done a).
Definition discard (a : author) (e : fev) := mkAu (au_pk a) (au_had a) (au_first a) (au_latest a) (au_oldest a) (au_serial a) (au_req a) (au_eosed a) (fe_id e :: au_ids a) (au_queue a) (au_seen a) (au_dropped a ++ [e]) (au_pending a) (au_done a).
Definition taken (a : author) := mkAu (au_pk a) (au_had a) (au_first a) (au_latest a) (au_oldest a) (au_serial a) (au_req a) (au_eosed a) (au_ids a) (au_queue a) (au_seen a) (au_dropped a) None (au_done a).
Definition ended (a : author) := mkAu (au_pk a) (au_had a) (au_first a) (au_latest a) (au_oldest a) (au_serial a) (au_req a) (au_eosed a) (au_ids a) (au_queue a) (au_seen a) (au_dropped a) None true.
Definition fresh (pk : str) (had : bool) (t : Z) := mkAu pk had t t 0 0 [] [] [] [] [] [] None false.
Definition with_authors (s : feed) (l : list author) := mkFeed (fd_todo s) l (fd_active s) (fd_closed s) (fd_kv s) (fd_stored s) (fd_out s) (fd_panic s).

Inductive fstep : faction -> feed -> feed -> Prop :=
| S_none s pk todo : fd_todo s = pk :: todo -> fstep (FNext false) s (finish s todo (fd_authors s))
| S_start s pk todo key had t : fd_todo s = pk :: todo -> stream_key "L"%char pk = Ok key ->
    match assoc key (fd_kv s) with None => had = false /\ t = 0 | Some data => had = true /\ decode_ts data = Ok t end ->
    fstep (FNext true) s (mkFeed todo (fd_authors s ++ [fresh pk had t]) (fd_active s) (fd_closed s) (fd_kv s) (fd_stored s) (fd_out s) (fd_panic s))
| S_crash s pk todo : fd_todo s = pk :: todo -> (stream_key "L"%char pk = Panic \/ exists key data, stream_key "L"%char pk = Ok key /\ assoc key (fd_kv s) = Some data /\ decode_ts data = Panic) ->
    fstep (FNext true) s (crash s)
| S_req s i r a : nth_error (fd_authors s) i = Some a -> au_done a = false -> asked r a = false ->
    fstep (FReq i r) s (with_authors s (upd (fd_authors s) i (mkAu (au_pk a) (au_had a) (au_first a) (au_latest a) (au_oldest a) (au_serial a) (au_req a ++ [(r, if au_had a then Some (au_latest a) else None)]) (au_eosed a) (au_ids a) (au_queue a) (au_seen a) (au_dropped a) (au_pending a) (au_done a))))
| S_eose s i r a : nth_error (fd_authors s) i = Some a -> au_done a = false -> asked r a = true ->
    fstep (FEose i r) s (with_authors s (upd (fd_authors s) i (mkAu (au_pk a) (au_had a) (au_first a) (au_latest a) (au_oldest a) (au_serial a) (au_req a) (r :: au_eosed a) (au_ids a) (au_queue a) (au_seen a) (au_dropped a) (au_pending a) (au_done a))))
| S_dup s i r e a : nth_error (fd_authors s) i = Some a -> au_done a = false -> asked r a = true -> In (fe_id e) (au_ids a) -> fstep (FArrive i r e) s s
| S_keep s i r e a : nth_error (fd_authors s) i = Some a -> au_done a = false -> asked r a = true -> ~ In (fe_id e) (au_ids a) ->
    (In r (au_eosed a) \/ au_had a = false \/ au_latest a <= fe_at e) -> fstep (FArrive i r e) s (with_authors s (upd (fd_authors s) i (keep a e)))
| S_drop s i r e a : nth_error (fd_authors s) i = Some a -> au_done a = false -> asked r a = true -> ~ In (fe_id e) (au_ids a) ->
    ~ In r (au_eosed a) -> au_had a = true -> fe_at e < au_latest a -> fstep (FArrive i r e) s (with_authors s (upd (fd_authors s) i (discard a e)))
| S_handle s i k e a a' kv kl ko : nth_error (fd_authors s) i = Some a -> au_done a = false -> au_pending a = None -> nth_error (au_queue a) k = Some e ->
    stream_key "L"%char (au_pk a) = Ok kl -> stream_key "O"%char (au_pk a) = Ok ko -> handle kl ko e (set_queue a (remove_nth k (au_queue a))) (fd_kv s) = (a', kv) ->
    fstep (FHandle i k) s (mkFeed (fd_todo s) (upd (fd_authors s) i a') (fd_active s) (fd_closed s) kv (fd_stored s ++ [e]) (fd_out s) (fd_panic s))
| S_sendpanic s i a e : nth_error (fd_authors s) i = Some a -> au_done a = false -> au_pending a = Some e -> (0 < fd_closed s)%nat -> fstep (FTake i) s (crash s)
| S_take s i a e : nth_error (fd_authors s) i = Some a -> au_done a = false -> au_pending a = Some e -> fd_closed s = 0%nat ->
    fstep (FTake i) s (mkFeed (fd_todo s) (upd (fd_authors s) i (taken a)) (fd_active s) (fd_closed s) (fd_kv s) (fd_stored s) (fd_out s ++ [(i, e)]) (fd_panic s))
| S_done s i a : nth_error (fd_authors s) i = Some a -> au_done a = false -> au_pending a = None -> fstep (FDone i) s (finish s (fd_todo s) (upd (fd_authors s) i (ended a))).

Lemma nmem_in x l : nmem x l = true <-> In x l.
Proof. unfold nmem. rewrite existsb_exists. split; [intros (y & I & E); apply Nat.eqb_eq in E; subst; exact I|intro I; exists x; split; [exact I|apply Nat.eqb_refl]]. Qed.
Lemma stream_key_err p pk : stream_key p pk <> Err.
Proof. unfold stream_key. destruct (Nat.ltb _ _); discriminate. Qed.
Lemma decode_ts_cases d : decode_ts d = Panic \/ exists t, decode_ts d = Ok t.
Proof. destruct d as [|a [|b [|c [|x d]]]]; cbn [decode_ts]; auto. right. eexists. reflexivity. Qed.

Lemma feed_fstep x s s' : feed_step x s = Some s' -> fd_panic s = false /\ fstep x s s'.
Proof.
  intro H. destruct s as [todo0 au act cl kv st out pn]. destruct pn.
  { exfalso. destruct x as [rl|i r|i r e|i r|i k|i|i]; cbn [feed_step fd_panic] in H; discriminate. }
  split; [reflexivity|].
  destruct x as [rl|i r|i r e|i r|i k|i|i]; cbn [feed_step fd_panic fd_todo fd_authors fd_active fd_closed fd_kv fd_stored fd_out] in H.
  - destruct todo0 as [|pk todo]; [discriminate|]. destruct rl; cbn [negb] in H.
    + destruct (stream_key "L"%char pk) as [key| |] eqn:K.
      * destruct (assoc key kv) as [data|] eqn:A.
        { destruct (decode_ts_cases data) as [D|[t D]]; rewrite D in H; injection H as <-.
          - eapply S_crash; [reflexivity|]. right. exists key, data. auto.
          - eapply (S_start (mkFeed _ _ _ _ _ _ _ _) pk todo key true t); [reflexivity|exact K|]. cbn [fd_kv]. rewrite A. auto. }
        { injection H as <-. eapply (S_start (mkFeed _ _ _ _ _ _ _ _) pk todo key false 0); [reflexivity|exact K|]. cbn [fd_kv]. rewrite A. auto. }
      * destruct (stream_key_err _ _ K).
      * injection H as <-. eapply S_crash; [reflexivity|]. left. exact K.
    + injection H as <-. eapply (S_none (mkFeed _ _ _ _ _ _ _ _)). reflexivity.
  - destruct (nth_error au i) as [[pk had fi la ol se rq eo ids q sn dr pe dn]|] eqn:N; [|discriminate]. destruct dn; cbn [au_done] in H; [discriminate|]. destruct (asked r _) eqn:Q; [discriminate|].
    injection H as <-. eapply (S_req (mkFeed _ _ _ _ _ _ _ _) i r (mkAu _ _ _ _ _ _ _ _ _ _ _ _ _ _)); [exact N|reflexivity|exact Q].
  - destruct (nth_error au i) as [a|] eqn:N; [|discriminate]. destruct a as [pk had fi la ol se rq eo ids q sn dr pe dn] eqn:EA. destruct dn; cbn [au_done] in H; [discriminate|]. rewrite <- EA in H. destruct (asked r a) eqn:Q; [|discriminate]. cbn [negb] in H.
    assert (DN : au_done a = false) by (subst a; reflexivity). rewrite <- EA in N. clear EA.
    destruct (smem (fe_id e) (au_ids a)) eqn:M.
    + injection H as <-. eapply S_dup; eauto. apply smem_In. exact M.
    + assert (NI : ~ In (fe_id e) (au_ids a)) by (intro I; apply smem_In in I; congruence).
      destruct (nmem r (au_eosed a) || negb (au_had a) || (au_latest a <=? fe_at e))%bool eqn:C; injection H as <-.
      * pose proof (S_keep (mkFeed todo0 au act cl kv st out false) i r e a) as G. unfold keep in G. rewrite DN in G. apply G; auto. apply Bool.orb_true_iff in C as [C|C]; [apply Bool.orb_true_iff in C as [C|C]|].
        { apply nmem_in in C. auto. }
        { apply Bool.negb_true_iff in C. auto. }
        { apply Z.leb_le in C. auto. }
      * apply Bool.orb_false_iff in C as [C C3]. apply Bool.orb_false_iff in C as [C1 C2]. apply Bool.negb_false_iff in C2. apply Z.leb_gt in C3.
        pose proof (S_drop (mkFeed todo0 au act cl kv st out false) i r e a) as G. unfold discard in G. rewrite DN in G. apply G; auto. intro I. apply nmem_in in I. congruence.
  - destruct (nth_error au i) as [[pk had fi la ol se rq eo ids q sn dr pe dn]|] eqn:N; [|discriminate]. destruct dn; cbn [au_done] in H; [discriminate|]. destruct (asked r _) eqn:Q; [|discriminate].
    injection H as <-. eapply (S_eose (mkFeed _ _ _ _ _ _ _ _) i r (mkAu _ _ _ _ _ _ _ _ _ _ _ _ _ _)); [exact N|reflexivity|exact Q].
  - destruct (nth_error au i) as [a|] eqn:N; [|discriminate]. destruct (au_done a) eqn:D; [discriminate|]. destruct (au_pending a) eqn:PE; [discriminate|].
    destruct (nth_error (au_queue a) k) as [e|] eqn:Q; [|discriminate]. destruct (stream_key "L"%char (au_pk a)) as [kl| |] eqn:KL; try discriminate. destruct (stream_key "O"%char (au_pk a)) as [ko| |] eqn:KO; try discriminate.
    destruct (handle kl ko e (set_queue a (remove_nth k (au_queue a))) kv) as [a' kv'] eqn:HH. injection H as <-. apply (S_handle (mkFeed _ _ _ _ _ _ _ _) i k e a a' kv' kl ko); auto.
  - destruct (nth_error au i) as [[pk had fi la ol se rq eo ids q sn dr pe dn]|] eqn:N; [|discriminate]. destruct dn; cbn [au_done] in H; [discriminate|]. cbn [au_pending] in H. destruct pe as [e|]; [|discriminate].
    destruct (Nat.ltb 0 cl) eqn:C; injection H as <-.
    + apply Nat.ltb_lt in C. eapply S_sendpanic; [exact N|reflexivity|reflexivity|exact C].
    + apply Nat.ltb_ge in C. eapply (S_take (mkFeed _ _ _ _ _ _ _ _) i (mkAu _ _ _ _ _ _ _ _ _ _ _ _ _ _)); [exact N|reflexivity|reflexivity|cbn; lia].
  - destruct (nth_error au i) as [a|] eqn:N; [|discriminate]. destruct (au_done a) eqn:D; [discriminate|]. destruct (au_pending a) as [e|] eqn:PE; [discriminate|].
    injection H as <-. apply (S_done (mkFeed _ _ _ _ _ _ _ _) i a); auto.
Qed.

(** The goroutine's step on one event *)
Lemma handle_spec kl ko e a kv a' kv' : handle kl ko e a kv = (a', kv') ->
  au_pk a' = au_pk a /\ au_had a' = au_had a /\ au_first a' = au_first a /\ au_req a' = au_req a /\ au_eosed a' = au_eosed a /\ au_ids a' = au_ids a /\ au_queue a' = au_queue a /\
  au_seen a' = au_seen a ++ [e] /\ au_dropped a' = au_dropped a /\ au_pending a' = Some e /\ au_done a' = au_done a /\ au_latest a' = Z.max (au_latest a) (fe_at e) /\
  ((au_latest a < fe_at e /\ au_serial a' = S (au_serial a) /\ au_oldest a' = au_oldest a /\ kv' = if Nat.eqb (Nat.modulo (S (au_serial a)) 10) 0 then mset kl (encode_ts (fe_at e)) kv else kv) \/
   (fe_at e <= au_latest a /\ fe_at e < au_oldest a /\ au_serial a' = au_serial a /\ au_oldest a' = fe_at e /\ kv' = mset ko (encode_ts (fe_at e)) kv) \/
   (fe_at e <= au_latest a /\ au_oldest a <= fe_at e /\ au_serial a' = au_serial a /\ au_oldest a' = au_oldest a /\ kv' = kv)).
Proof.
  destruct a as [pk had fi la ol se rq eo ids q sn dr pe dn]. unfold handle. destruct (la <? fe_at e) eqn:L; [|destruct (fe_at e <? ol) eqn:O]; intro H; injection H as <- <-; cbn;
    rewrite ?Z.ltb_lt, ?Z.ltb_ge in *; repeat (split; [first [reflexivity|lia]|]).
  - left. auto.
  - right. left. auto.
  - right. right. auto.
Qed.
Lemma remove_nth_perm {A} (l : list A) : forall k x, nth_error l k = Some x -> Permutation l (x :: remove_nth k l).
Proof.
  induction l as [|y l IH]; intros [|k] x H; try discriminate; cbn [nth_error remove_nth] in *; [injection H as ->; reflexivity|].
  rewrite (IH k x H) at 1. apply perm_swap.
Qed.
