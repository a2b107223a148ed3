(** Counting: C102. *)
From Verif Require Import Base Machine HllModel CountModel.
Import ListNotations.
Local Open Scope nat_scope.

(** * Spec *)
(** the first COUNT reply among the messages *)
Fixpoint first_reply (l : list cmsg) : option Z := match l with [] => None | CReply n :: _ => Some n | _ :: r => first_reply r end.
Definition replies (l : list cmsg) : list Z := flat_map (fun m => match m with CReply n => [n] | _ => [] end) l.

Lemma first_head l : first_reply l = match replies l with [] => None | n :: _ => Some n end.
Proof. induction l as [|[n| |] l IH]; [reflexivity|reflexivity|exact IH|exact IH]. Qed.
Definition cinv (l0 : list cmsg) (s : cst) : Prop :=
  match c_caller s with
  | Waiting => match c_reader s with
               | Some n => exists r, replies l0 = n :: r
               | None => c_sub s = true -> replies (c_in s) = replies l0
               end
  | Leaving (Some n) | Left (Some n) => exists r, replies l0 = n :: r
  | _ => True
  end.
Lemma cinv_step l0 a s s' : cinv l0 s -> cstep a s = Some s' -> cinv l0 s'.
Proof.
  intros I H. destruct s as [ms rd sb cl ca]. unfold cinv in *. cbn [c_caller c_reader c_sub c_in c_closing] in *. destruct a; cbn [cstep c_caller c_reader c_sub c_in c_closing] in H.
  - destruct rd as [n|]; [discriminate|]. destruct ms as [|[n| |] ms]; [discriminate| | |]; match type of H with Some ?y = _ => assert (s' = y) as -> by congruence end; cbn [c_caller c_reader c_sub c_in c_closing]; (destruct ca as [|[r|]|[r|]]; [|exact I|exact I|exact I|exact I]).
    + destruct sb; [|intro Q; discriminate Q]. specialize (I eq_refl). cbn in I. eauto.
    + intro Q. exact (I Q).
    + intro Q. exact (I Q).
  - destruct rd as [n|]; [|discriminate]. destruct ca; try discriminate. match type of H with Some ?y = _ => assert (s' = y) as -> by congruence end. exact I.
  - destruct ca; try discriminate. match type of H with Some ?y = _ => assert (s' = y) as -> by congruence end. exact Logic.I.
  - destruct ca as [|r|r]; try discriminate. match type of H with Some ?y = _ => assert (s' = y) as -> by congruence end. exact I.
  - destruct cl; [|discriminate]. match type of H with Some ?y = _ => assert (s' = y) as -> by congruence end. cbn [c_caller c_reader c_sub c_in c_closing]. destruct ca; try exact I. destruct rd; [exact I|]. intro Q. discriminate Q.
Qed.
(** Whatever the relay sends and whenever the timer fires: a count that is returned is that of the relay's first reply. *)
Theorem C102_first l s n : reaches cstep (cinit l) s -> (c_caller s = Left (Some n) \/ c_caller s = Leaving (Some n)) -> first_reply l = Some n.
Proof.
  intros R H. assert (I : cinv l s) by (eapply (invariant cstep (cinv l)); [|intros a x y; apply cinv_step|exact R]; intro Q; reflexivity). unfold cinv in I. rewrite first_head. destruct H as [H|H]; rewrite H in I; destruct I as [r ->]; reflexivity.
Qed.
(** Once the caller is gone the subscription is no longer in the map: later replies find nobody and are dropped. *)
Theorem C102_unsubscribed l s r : reaches cstep (cinit l) s -> c_caller s = Left r -> c_sub s = false.
Proof.
  intros R. revert r. eapply (invariant cstep (fun s => forall r, c_caller s = Left r -> c_sub s = false)); [| |exact R]; [intros r Q; discriminate Q|].
  intros a x y J H r Q. destruct x as [ms rd sb cl ca]. cbn [c_caller c_sub] in J. destruct a; cbn [cstep c_caller c_reader c_sub c_in c_closing] in H.
  - destruct rd; [discriminate|]. destruct ms as [|[n| |] ms]; [discriminate| | |]; match type of H with Some ?z = _ => assert (y = z) as -> by congruence end; cbn [c_caller c_sub] in *; exact (J r Q).
  - destruct rd; [|discriminate]. destruct ca; try discriminate. match type of H with Some ?z = _ => assert (y = z) as -> by congruence end. discriminate Q.
  - destruct ca; try discriminate. match type of H with Some ?z = _ => assert (y = z) as -> by congruence end. discriminate Q.
  - destruct ca; try discriminate. match type of H with Some ?z = _ => assert (y = z) as -> by congruence end. reflexivity.
  - destruct cl; [|discriminate]. match type of H with Some ?z = _ => assert (y = z) as -> by congruence end. reflexivity.
Qed.
(** If the relay replies and does not close the subscription, and the time is not up, the caller can always go on until it has the count. *)
Definition ainv (n : Z) (s : cst) : Prop :=
  match c_caller s with
  | Waiting => c_sub s = true /\ c_closing s = false /\ ~ In CClosed (c_in s) /\ match c_reader s with Some m => m = n | None => first_reply (c_in s) = Some n end
  | Leaving r | Left r => r = Some n
  end.
Lemma ainv_step n a s s' : a <> CTimeout -> ainv n s -> cstep a s = Some s' -> ainv n s'.
Proof.
  intros NT J H. destruct s as [ms rd sb cl ca]. unfold ainv in *. cbn [c_caller c_reader c_sub c_in c_closing] in *. destruct a; cbn [cstep c_caller c_reader c_sub c_in c_closing] in H.
  - destruct rd as [m|]; [discriminate|]. destruct ms as [|[m| |] ms]; [discriminate| | |]; match type of H with Some ?y = _ => assert (s' = y) as -> by congruence end; cbn [c_caller c_reader c_sub c_in c_closing]; (destruct ca; [|exact J|exact J]); destruct J as (-> & -> & N & F); cbn [first_reply] in F.
    + split; [reflexivity|]. split; [reflexivity|]. split; [intro Q; apply N; right; exact Q|congruence].
    + exfalso. apply N. left. reflexivity.
    + split; [reflexivity|]. split; [reflexivity|]. split; [intro Q; apply N; right; exact Q|exact F].
  - destruct rd as [m|]; [|discriminate]. destruct ca; try discriminate. match type of H with Some ?y = _ => assert (s' = y) as -> by congruence end. destruct J as (_ & _ & _ & ->). reflexivity.
  - congruence.
  - destruct ca as [|r|r]; try discriminate. match type of H with Some ?y = _ => assert (s' = y) as -> by congruence end. exact J.
  - destruct cl; [|discriminate]. match type of H with Some ?y = _ => assert (s' = y) as -> by congruence end. cbn [c_caller c_reader c_sub c_in c_closing]. destruct ca; try exact J. destruct J as (_ & Q & _). discriminate Q.
Qed.
Theorem C102_answered l n acts s : ~ In CClosed l -> first_reply l = Some n -> Forall (fun a => a <> CTimeout) acts -> exec cstep acts (cinit l) = Some s ->
  c_caller s = Left (Some n) \/ exists a s', a <> CTimeout /\ cstep a s = Some s'.
Proof.
  intros N F NT R. assert (J : ainv n s).
  { refine (invariant_on cstep (fun a => a <> CTimeout) (ainv n) (cinit l) _ _ acts s NT R).
    - split; [reflexivity|]. split; [reflexivity|]. split; [exact N|exact F].
    - intros a x y. apply ainv_step. }
  destruct s as [ms rd sb cl ca]. unfold ainv in J. cbn [c_caller c_reader c_sub c_in c_closing] in *. destruct ca as [|r|r]; [| |left; congruence]; right.
  - destruct J as (-> & -> & N2 & G). destruct rd as [m|].
    + exists CHand. eexists. split; [discriminate|reflexivity].
    + exists CRead. destruct ms as [|[m| |] ms]; [discriminate| | |]; (eexists; split; [discriminate|reflexivity]).
  - exists CUnsub. eexists. split; [discriminate|reflexivity].
Qed.
(** A relay that replies once, and before the timer, does not block the connection. *)
Theorem C102_reader_partial l acts s : length (replies l) <= 1 -> Forall (fun a => a <> CTimeout) acts -> exec cstep acts (cinit l) = Some s -> c_in s <> [] -> exists a s', cstep a s = Some s'.
Proof.
  intros L F R N. assert (J : length (replies (c_in s)) + (match c_reader s with Some _ => 1 | None => 0 end) + (match c_caller s with Waiting => 0 | _ => 1 end) <= 1).
  { pose proof (invariant_on cstep (fun a => a <> CTimeout) (fun s => length (replies (c_in s)) + (match c_reader s with Some _ => 1 | None => 0 end) + (match c_caller s with Waiting => 0 | _ => 1 end) <= 1) (cinit l)) as X. eapply X; [cbn [cinit c_in c_reader c_caller]; lia| |exact F|exact R]. clear. intros a s s' NT I H. destruct s as [ms rd sb cl ca]. cbn [c_caller c_reader c_in] in *.
    destruct a; cbn [cstep c_caller c_reader c_sub c_in c_closing] in H.
    - destruct rd as [n|]; [discriminate|]. destruct ms as [|[n| |] ms]; [discriminate| | |]; match type of H with Some ?y = _ => assert (s' = y) as -> by congruence end; unfold replies in *; cbn [flat_map app length c_in c_reader c_caller] in *; destruct ca; try destruct sb; lia.
    - destruct rd as [n|]; [|discriminate]. destruct ca; try discriminate. match type of H with Some ?y = _ => assert (s' = y) as -> by congruence end. cbn [c_in c_reader c_caller]. lia.
    - congruence.
    - destruct ca as [|r|r]; try discriminate. match type of H with Some ?y = _ => assert (s' = y) as -> by congruence end. exact I.
    - destruct cl; [|discriminate]. match type of H with Some ?y = _ => assert (s' = y) as -> by congruence end. exact I. }
  destruct s as [ms rd sb cl ca]. cbn [c_caller c_reader c_in] in *. destruct rd as [n|].
  - destruct ca; cbn in J; [|lia|lia]. exists CHand. cbn. eauto.
  - destruct ms as [|[n| |] ms]; [congruence| | |]; exists CRead; cbn; eauto.
Qed.
(** False in general: the reader can be at the send when nobody receives any more. Then nothing else that the relay sends is read. *)
Definition deaf (s : cst) : Prop := c_in s <> [] /\ forall acts s', exec cstep acts s = Some s' -> c_in s' = c_in s.
Lemma stuck_deaf s n r : c_reader s = Some n -> c_caller s = Left r -> c_in s <> [] -> deaf s.
Proof.
  intros R C N. split; [exact N|]. assert (G : forall acts x, c_reader x = Some n -> c_caller x = Left r -> c_in x = c_in s -> forall s', exec cstep acts x = Some s' -> c_in s' = c_in s).
  { induction acts as [|a acts IH]; intros x Rx Cx Ix s' H; cbn [exec] in H; [assert (s' = x) as -> by congruence; exact Ix|]. destruct (cstep a x) as [y|] eqn:E; [|discriminate]. destruct a; cbn [cstep] in E; rewrite ?Rx, ?Cx in E; try discriminate. destruct (c_closing x); [|discriminate]. match type of E with Some ?z = _ => assert (y = z) as -> by congruence end. eapply IH; [| | |exact H]; first [reflexivity|assumption]. }
  intros acts s' H. exact (G acts s R C eq_refl s' H).
Qed.
(** ... a relay that replies twice *)
Theorem C102_twice_refuted : exists l s, reaches cstep (cinit l) s /\ c_caller s = Left (Some 1%Z) /\ deaf s.
Proof.
  exists [CReply 1; CReply 2; COther]. eexists. split; [exists [CRead; CHand; CRead; CUnsub]; vm_compute; reflexivity|]. split; [reflexivity|]. eapply stuck_deaf; [reflexivity|reflexivity|discriminate].
Qed.
(** ... a reply at the moment when the time is up *)
Theorem C102_late_refuted : exists l s, length (replies l) = 1 /\ reaches cstep (cinit l) s /\ c_caller s = Left None /\ deaf s.
Proof.
  exists [CReply 1; COther]. eexists. split; [reflexivity|]. split; [exists [CRead; CTimeout; CUnsub]; vm_compute; reflexivity|]. split; [reflexivity|]. eapply stuck_deaf; [reflexivity|reflexivity|discriminate].
Qed.
(** False: a CLOSED ends the count. The caller waits until its time is up. *)
Theorem C102_closed_refuted : exists s, reaches cstep (cinit [CClosed]) s /\ c_sub s = false /\ c_caller s = Waiting /\ forall a s', cstep a s = Some s' -> a = CTimeout.
Proof. eexists. split; [exists [CRead; CGone]; vm_compute; reflexivity|]. split; [reflexivity|]. split; [reflexivity|]. intros [] s' H; try discriminate; reflexivity. Qed.
Example C102_applies : exists s, exec cstep [CRead; CRead; CHand; CUnsub; CRead] (cinit [COther; CReply 7; COther]) = Some s /\ c_caller s = Left (Some 7%Z) /\ c_in s = [].
Proof. eexists. split; [vm_compute; reflexivity|]. split; reflexivity. Qed.

(** ** Many relays *)
(** the largest value any relay has for a register *)
Definition top (os : list registers) (j : nat) (v : N) : Prop :=
  (v = 0%N \/ exists o, In o os /\ nth_error o j = Some v) /\ forall o w, In o os -> nth_error o j = Some w -> (w <= v)%N.
Definition from (os : list registers) (j : nat) (v : N) : Prop := v = 0%N \/ exists o, In o os /\ nth_error o j = Some v.
Definition minv (os : list registers) (s : mst) : Prop :=
  map m_other (m_wks s) = os /\ length (m_regs s) = 256 /\ forall j v, nth_error (m_regs s) j = Some v -> from os j v.
Lemma map_upd_other l i w w' : nth_error l i = Some w -> m_other w' = m_other w -> map m_other (upd l i w') = map m_other l.
Proof. revert i. induction l as [|x l IH]; intros [|i] H E; cbn [nth_error upd map] in *; try discriminate; [assert (x = w) as -> by congruence; rewrite E; reflexivity|rewrite (IH i H E); reflexivity]. Qed.
Lemma minv_step os a s s' : minv os s -> mstep a s = Some s' -> minv os s'.
Proof.
  intros (M & L & R) H. destruct a as [i|i]; cbn [mstep] in H; destruct (nth_error (m_wks s) i) as [[o k []]|] eqn:N; try discriminate; destruct (nth_error o k) as [v|] eqn:K; try discriminate.
  - destruct (nth_error (m_regs s) k) as [r|] eqn:Q; [|discriminate]. match type of H with Some ?y = _ => assert (s' = y) as -> by congruence end. split; [|split; assumption]. cbn [m_wks]. rewrite (map_upd_other _ _ _ _ N); [exact M|]. destruct (r <? v)%N; reflexivity.
  - match type of H with Some ?y = _ => assert (s' = y) as -> by congruence end. split; [cbn [m_wks]; rewrite (map_upd_other _ _ _ _ N); [exact M|reflexivity]|]. cbn [m_regs]. split; [rewrite upd_length; exact L|]. intros j w J. apply nth_upd in J. destruct J as [[<- ->]|[_ J]]; [|exact (R j w J)]. right. exists o. split; [|exact K]. rewrite <- M. change o with (m_other (mkMwk o k true)). apply in_map. exact (nth_error_In _ _ N).
Qed.
Lemma minv_init os : minv os (minit os).
Proof.
  split; [unfold minit; cbn [m_wks]; rewrite map_map; apply map_id|]. split; [apply repeat_length|]. intros j v H. left. apply nth_error_In in H. apply repeat_spec in H. exact H.
Qed.
(** However the goroutines run, no register gets a value that no relay sent: the estimate is never made too high by merging. *)
Theorem C102_sound os s j v : reaches mstep (minit os) s -> nth_error (m_regs s) j = Some v -> v = 0%N \/ exists o, In o os /\ nth_error o j = Some v.
Proof. intros R H. assert (I : minv os s) by (eapply (invariant mstep (minv os)); [apply minv_init|intros a x y; apply minv_step|exact R]). apply I in H. exact H. Qed.
(** With a lock the result is that of the largest values; that is what is missing. *)
Definition linv (s : mst) : Prop :=
  forall i w, nth_error (m_wks s) i = Some w ->
    (forall j v r, j < m_at w -> nth_error (m_other w) j = Some v -> nth_error (m_regs s) j = Some r -> (v <= r)%N) /\ m_at w <= length (m_other w) /\
    (m_go w = true -> (exists v r, nth_error (m_other w) (m_at w) = Some v /\ nth_error (m_regs s) (m_at w) = Some r /\ (r < v)%N) /\ forall i' w', nth_error (m_wks s) i' = Some w' -> m_go w' = true -> i' = i).
Lemma locked_is_step a s s' : locked_step a s = Some s' -> mstep a s = Some s'.
Proof. destruct a as [i|i]; cbn [locked_step]; [destruct (existsb m_go (m_wks s)); [discriminate|auto]|auto]. Qed.
Lemma linv_step a s s' : linv s -> locked_step a s = Some s' -> linv s'.
Proof.
  intros I H. destruct a as [i|i].
  - cbn [locked_step] in H. destruct (existsb m_go (m_wks s)) eqn:NB; [discriminate|]. assert (NG : forall i' w', nth_error (m_wks s) i' = Some w' -> m_go w' = false). { intros i' w' E. destruct (m_go w') eqn:G; [|reflexivity]. assert (existsb m_go (m_wks s) = true) by (apply existsb_exists; exists w'; split; [exact (nth_error_In _ _ E)|exact G]). congruence. }
    cbn [mstep] in H. destruct (nth_error (m_wks s) i) as [[o k []]|] eqn:N; try discriminate. destruct (nth_error o k) as [v|] eqn:K; [|discriminate]. destruct (nth_error (m_regs s) k) as [r|] eqn:Q; [|discriminate]. match type of H with Some ?y = _ => assert (s' = y) as -> by congruence end. clear H.
    destruct (I i _ N) as (I1 & I2 & _). cbn [m_at m_other] in I1, I2.
    intros i' w' E. cbn [m_wks m_regs] in *. apply nth_upd in E. destruct E as [[<- ->]|[NE E]].
    + destruct (N.ltb_spec r v) as [LT|LE]; cbn [m_other m_at m_go].
      * split; [exact I1|]. split; [exact I2|]. intros _. split; [exists v, r; auto|]. intros i' w' E G. apply nth_upd in E. destruct E as [[<- _]|[_ E]]; [reflexivity|]. rewrite (NG _ _ E) in G. discriminate.
      * split; [|split; [apply nth_lt in K; lia|discriminate]]. intros j v' r' J V R'. assert (j < k \/ j = k) as [J'| ->] by lia; [exact (I1 j v' r' J' V R')|]. assert (v' = v) by congruence. assert (r' = r) by congruence. subst. exact LE.
    + destruct (I i' _ E) as (J1 & J2 & _). split; [exact J1|]. split; [exact J2|]. intro G. rewrite (NG _ _ E) in G. discriminate.
  - cbn [locked_step mstep] in H. destruct (nth_error (m_wks s) i) as [[o k []]|] eqn:N; try discriminate. destruct (nth_error o k) as [v|] eqn:K; [|discriminate]. match type of H with Some ?y = _ => assert (s' = y) as -> by congruence end. clear H.
    destruct (I i _ N) as (I1 & I2 & I3). cbn [m_at m_other m_go] in *. destruct (I3 eq_refl) as ((v0 & r & V0 & R0 & LT) & UN). assert (v0 = v) as -> by congruence. pose proof (nth_lt _ _ _ R0) as LK.
    intros i' w' E. cbn [m_wks m_regs] in *. apply nth_upd in E. destruct E as [[<- ->]|[NE E]].
    + cbn [m_other m_at m_go]. split; [|split; [apply nth_lt in K; lia|discriminate]]. intros j v' r' J V R'. apply nth_upd in R'. destruct R' as [[<- ->]|[NJ R']]; [assert (v' = v) by congruence; subst; lia|]. apply (I1 j v' r'); [lia|exact V|exact R'].
    + destruct (I i' _ E) as (J1 & J2 & _). split; [|split; [exact J2|]].
      * intros j v' r' J V R'. apply nth_upd in R'. destruct R' as [[<- ->]|[NJ R']]; [|exact (J1 j v' r' J V R')]. specialize (J1 k v' r J V R0). lia.
      * intro G. exfalso. apply NE. symmetry. exact (UN i' w' E G).
Qed.
Theorem C102_merge_partial os s j v : Forall (fun o => length o = 256) os -> reaches locked_step (minit os) s -> mdone s -> nth_error (m_regs s) j = Some v -> top os j v.
Proof.
  intros F R D H. assert (I : minv os s /\ linv s).
  { eapply (invariant locked_step (fun s => minv os s /\ linv s)); [| |exact R].
    - split; [apply minv_init|]. intros i w E. unfold minit in E. cbn [m_wks] in E. apply nth_error_In, in_map_iff in E. destruct E as (o & <- & _). cbn. split; [intros; lia|]. split; [lia|discriminate].
    - intros a x y [I1 I2] E. split; [|exact (linv_step a x y I2 E)]. exact (minv_step os a x y I1 (locked_is_step a x y E)). }
  destruct I as [(M & L & FR) LI]. split; [exact (FR j v H)|]. intros o w O W. rewrite <- M in O. apply in_map_iff in O. destruct O as (k & <- & O). unfold mdone in D. rewrite Forall_forall in D. destruct (D k O) as [AT _]. apply In_nth_error in O. destruct O as [i O]. destruct (LI i k O) as (LE & _ & _). apply (LE j w v); [rewrite AT; exact (nth_lt _ _ _ W)|exact W|exact H].
Qed.
(** False as it is: two goroutines compare, the one with the larger value writes first, and the smaller one stays. *)
Definition one (v : N) : registers := v :: repeat 0%N 255.
Theorem C102_merge_refuted : exists os s, Forall (fun o => length o = 256) os /\ reaches mstep (minit os) s /\ mdone s /\ nth_error (m_regs s) 0 = Some 3%N /\ ~ top os 0 3%N.
Proof.
  exists [one 5; one 3]. eexists. split; [repeat constructor|]. split; [exists ([MRead 0; MRead 1; MWrite 0; MWrite 1] ++ repeat (MRead 0) 255 ++ repeat (MRead 1) 255); vm_compute; reflexivity|].
  split; [repeat constructor|]. split; [reflexivity|]. intros [_ T]. specialize (T (one 5) 5%N (or_introl eq_refl) eq_refl). lia.
Qed.
Example C102_merge_applies : exists s, reaches locked_step (minit [one 5; one 3]) s /\ mdone s /\ nth_error (m_regs s) 0 = Some 5%N.
Proof. eexists. split; [exists ([MRead 0; MWrite 0] ++ repeat (MRead 0) 255 ++ repeat (MRead 1) 256); vm_compute; reflexivity|]. split; [repeat constructor|reflexivity]. Qed.

Print Assumptions C102_first.
Print Assumptions C102_unsubscribed.
Print Assumptions C102_reader_partial.
Print Assumptions C102_twice_refuted.
Print Assumptions C102_late_refuted.
Print Assumptions C102_closed_refuted.
Print Assumptions C102_sound.
Print Assumptions C102_merge_partial.
Print Assumptions C102_merge_refuted.

Print Assumptions C102_answered.
