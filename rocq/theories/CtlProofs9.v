(** From the invariants to what the clients see. *)
From Coq Require Import Lia.
From Verif Require Import Base CtlModel CtlSpec CtlProofs CtlProofs2 CtlProofs3 CtlProofs4 CtlProofs5 CtlProofs6 CtlProofs7 CtlProofs8.
Local Open Scope N_scope.

Definition is_got (x : item) : bool := match x with Got _ _ _ _ => true | _ => false end.

Section Css.
  Variable fds : list N.
  Variables status_v status_d : N.
  Variable R : nat -> N -> Prop.
  Notation exchange := (exchange fds status_v status_d R).
  Notation connection_log := (connection_log fds status_v status_d R).

  (** An exchange has one request, its first item. *)
  Lemma exchange_shape p x : exchange p x -> exists t key v d xs, x = Got t key v d :: xs /\ (forall y, In y xs -> is_got y = false) /\ (length fds <> 0%nat -> key = REQ_ZREL -> exists r, xs = [Wrote r 0 0] /\ (r = RESP_DENY \/ r = RESP_LATR \/ R t r)).
  Proof.
    assert (Mg : forall ch y, In y (map GotData ch) -> is_got y = false) by (intros ch y Y; apply in_map_iff in Y; destruct Y as (z & <- & _); reflexivity).
    assert (Mw : forall ch y, In y (map WroteData ch) -> is_got y = false) by (intros ch y Y; apply in_map_iff in Y; destruct Y as (z & <- & _); reflexivity).
    intros X. destruct X.
    - do 5 eexists. split; [reflexivity|]. split; [intros y [<-|[]]; reflexivity|]. eauto 6.
    - do 5 eexists. split; [reflexivity|]. split; [intros y [<-|[]]; reflexivity|]. intros _ ->. exfalso. apply H0. cbn. auto 10.
    - do 5 eexists. split; [reflexivity|]. split; [intros y [<-|[]]; reflexivity|]. discriminate.
    - do 5 eexists. split; [reflexivity|]. split; [intros y [<-|[]]; reflexivity|]. intros _ ->. exists r. split; [reflexivity|]. destruct (N.eq_dec r RESP_LATR) as [->|Q]; auto.
    - do 5 eexists. split; [reflexivity|]. split; [|discriminate]. intros y Y. apply in_app_or in Y. destruct Y as [Y|[<-|[]]]; [now apply (Mg chunks)|reflexivity].
    - do 5 eexists. split; [reflexivity|]. split; [|destruct H0 as [->| ->]; discriminate]. intros y [<-|[<-|Y]]; [reflexivity|reflexivity|now apply (Mw chunks)].
    - do 5 eexists. split; [reflexivity|]. split; [intros y [<-|[]]; reflexivity|]. discriminate.
    - do 5 eexists. split; [reflexivity|]. split; [|discriminate]. intros y [<-|[<-|Y]]; [reflexivity|reflexivity|now apply (Mw chunks)].
    - do 5 eexists. split; [reflexivity|]. split; [|discriminate]. intros y Y. apply in_map_iff in Y. destruct Y as (z & <- & _). reflexivity.
  Qed.

  Lemma app_cases {A} (a b c d : list A) : a ++ b = c ++ d -> exists l, (a = c ++ l /\ d = l ++ b) \/ (c = a ++ l /\ b = l ++ d /\ l <> []).
  Proof.
    revert c. induction a as [|x a IH]; intros c E.
    - destruct c as [|y c]; [exists []; now left|]. exists (y :: c). right. cbn in *. split; [reflexivity|]. split; [exact E|discriminate].
    - destruct c as [|y c]; [exists (x :: a); left; cbn in *; auto|]. cbn in E. injection E as <- E. destruct (IH c E) as (l & [(-> & ->)|(-> & -> & Nl)]); exists l; [left|right]; auto.
  Qed.

  Lemma answer_in t v d r y z : length fds <> 0%nat -> r = RESP_ACK \/ r = RESP_FAIL -> forall p done part rest a b, Forall (exchange p) done -> exchange p (part ++ rest) ->
    concat done ++ part = a ++ [Got t REQ_ZREL v d; Wrote r y z] ++ b -> R t r.
  Proof.
    intros Hf Hr p done. induction done as [|x done IH]; intros part rs a b F X E.
    - cbn in E. subst part. destruct (exchange_shape _ _ X) as (t' & key & v' & d' & xs & Ex & Ng & Zr). rewrite <- !app_assoc in Ex. destruct a as [|g a].
      + cbn in Ex. injection Ex as <- <- <- <- Ex. destruct (Zr Hf eq_refl) as (r' & Er & Hr'). rewrite <- Ex in Er. injection Er as <- _ _ _. destruct Hr as [->| ->]; destruct Hr' as [Q|[Q|Q]]; try discriminate Q; exact Q.
      + exfalso. cbn in Ex. injection Ex as -> Ex. assert (Y : is_got (Got t REQ_ZREL v d) = false); [|discriminate]. apply Ng. rewrite <- Ex. apply in_or_app. right. now left.
    - cbn in E. rewrite <- app_assoc in E. inversion F as [|? ? Fx Fd]; subst. destruct (exchange_shape _ _ Fx) as (t' & key & v' & d' & xs & -> & Ng & Zr).
      destruct (app_cases _ _ _ _ E) as (l & [(Ea & Eb)|(Ea & Eb & Nl)]).
      + destruct a as [|g a].
        * cbn in Ea. subst l. cbn in Eb. injection Eb as <- <- <- <- Eb. destruct (Zr Hf eq_refl) as (r' & -> & Hr'). cbn in Eb. injection Eb as <- _ _ _. destruct Hr as [->| ->]; destruct Hr' as [Q|[Q|Q]]; try discriminate Q; exact Q.
        * cbn in Ea. injection Ea as <- Ea. destruct l as [|l0 l]; cbn in Eb.
          -- rewrite app_nil_r in Ea. subst a. apply (IH part rs [] b Fd X). symmetry. exact Eb.
          -- exfalso. injection Eb as <- _. assert (Y : is_got (Got t REQ_ZREL v d) = false); [|discriminate]. apply Ng. rewrite Ea. apply in_or_app. right. now left.
      + apply (IH part rs l b Fd X). exact Eb.
  Qed.

  Lemma strip {A} (l a b : list A) (x g w : A) : l ++ [x] = a ++ [g; w] ++ b -> x <> w -> exists b', l = a ++ [g; w] ++ b'.
  Proof.
    intros E N. destruct b as [|b0 b] using rev_ind.
    - cbn in E. change [g; w] with ([g] ++ [w]) in E. rewrite app_assoc in E. apply app_inj_tail in E. destruct E. contradiction.
    - exists b. rewrite !app_assoc in E. apply app_inj_tail in E. destruct E as (-> & _). now rewrite <- app_assoc.
  Qed.
  Lemma answer_log open l a b t v d r y z : length fds <> 0%nat -> connection_log open l -> l = a ++ [Got t REQ_ZREL v d; Wrote r y z] ++ b -> r = RESP_ACK \/ r = RESP_FAIL -> R t r.
  Proof.
    intros Hf (p & done & part & F & E & X) El Hr. rewrite El in E. destruct a as [|a0 a]; [discriminate|]. cbn [app] in E. injection E as -> E. symmetry in E.
    assert (E2 : exists b', concat done ++ part = a ++ [Got t REQ_ZREL v d; Wrote r y z] ++ b').
    { destruct open; [rewrite app_nil_r in E; now exists b|]. rewrite app_assoc in E. apply (strip _ a b Closed); [exact E|discriminate]. }
    destruct E2 as (b' & E2). destruct X as [(rs & X)|(_ & t' & key & v' & d' & -> & P & _)].
    - now apply (answer_in t v d r y z Hf Hr p done part rs a b').
    - destruct (strip _ _ _ _ _ _ E2) as (b'' & E3); [discriminate|]. apply (answer_in t v d r y z Hf Hr p done [] [Got t' REQ_INFO v' d'; Wrote RESP_ACK status_v status_d] a b''); [exact F| |now rewrite app_nil_r].
      apply Xinfo. destruct p as [[? ?]|]; cbn; auto.
  Qed.

  (** Whole exchanges do not end with a request. *)
  Lemma exchange_last p x a t v d : length fds <> 0%nat -> exchange p x -> x <> a ++ [Got t REQ_ZREL v d].
  Proof.
    intros Hf X E. destruct (exchange_shape _ _ X) as (t' & key & v' & d' & xs & -> & Ng & Zr). destruct a as [|a0 a].
    - cbn in E. injection E as <- -> <- <- ->. destruct (Zr Hf eq_refl) as (r & Q & _). discriminate.
    - cbn in E. injection E as <- ->. assert (Y : is_got (Got t REQ_ZREL v d) = false); [|discriminate]. apply Ng, in_or_app. right. now left.
  Qed.
  Lemma log_waiting p done part a t v d : length fds <> 0%nat -> Forall (exchange p) done -> [Opened p] ++ concat done ++ part = a ++ [Got t REQ_ZREL v d] -> part <> [].
  Proof.
    intros Hf F E ->. rewrite app_nil_r in E. destruct done as [|x done _] using rev_ind.
    - cbn in E. destruct a as [|? [|]]; discriminate.
    - rewrite concat_app in E. cbn in E. rewrite app_nil_r in E. apply Forall_app in F. destruct F as (_ & F). inversion F as [|? ? Fx _]; subst.
      destruct (exchange_shape _ _ Fx) as (t' & key & v' & d' & xs & Ex & _). destruct x as [|x0 x _] using rev_ind; [discriminate|]. rewrite app_assoc in E. change (Opened p :: (concat done ++ x) ++ [x0] = a ++ [Got t REQ_ZREL v d]) in E. rewrite app_comm_cons in E. apply app_inj_tail in E. destruct E as (_ & ->). now apply (exchange_last p _ x t v d Hf Fx).
  Qed.
  (** A client whose request to reload is the last thing seen waits for a load, or
      its answer is ready. *)
  Lemma zrel_last s i c t : length fds <> 0%nat -> coks fds status_v status_d R s -> s_conns s i = Some c -> waits_since (s_log s i) t -> k_write c = true \/ In i (s_active s) \/ In i (s_queued s).
  Proof.
    intros Hf C Ec (a & v & d & L). specialize (C i). rewrite Ec in C. destruct C as (done & part & D & El & Cs). rewrite L in El. symmetry in El. assert (Np := log_waiting _ _ _ _ _ _ _ Hf D El).
    unfold cst in Cs. destruct (k_state c); try (left; apply Cs; fail).
    - now destruct Cs as (-> & _).
    - exfalso. destruct Cs as (t' & ch & -> & _). rewrite !app_assoc in El. destruct ch as [|h ch _] using rev_ind.
      + cbn [map] in El. rewrite app_nil_r in El. apply app_inj_tail in El. destruct El as (_ & El). discriminate.
      + rewrite map_app in El. cbn [map] in El. rewrite app_assoc in El. apply app_inj_tail in El. destruct El as (_ & El). discriminate.
    - destruct Cs as (t' & -> & _ & _ & _ & _ & [(W & _)|(_ & _ & Kk)]); [right; now apply waits_in|]. exfalso. rewrite !app_assoc in El. apply app_inj_tail in El. destruct El as (_ & El). rewrite Kk in El. discriminate.
  Qed.
End Css.
