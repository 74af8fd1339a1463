(** Reloads and readers of a map: every step keeps the invariant. *)
From Verif Require Import Base MapsModel MapsSpec MapsProofs.
Set Implicit Arguments.

Section Inv.
  Variables Net Client : Type.
  Variable choose : forall D : Type, option (list (Net * D)) -> list (Net * D) -> Client -> option D.
  Hypothesis nat_choose : by_network choose.
  Variable default : dclist.

  Definition old_tree (w : wpc Net) : option nat := match w with Idle => None | Lists _ t _ | Tree t _ | Sync _ t _ => t end.
  Definition old_lists (w : wpc Net) : option nat := match w with Idle => None | Lists _ _ l | Tree _ l | Sync _ _ l => l end.
  Definition may (r : nat) (w : wpc Net) : Prop := match w with Sync l _ _ => In r l | _ => True end.
  Definition holds_tree (s : state Net Client) r t : Prop := p_tree s = Some t \/ (old_tree (w_pc s) = Some t /\ may r (w_pc s)).
  Definition holds_arr (s : state Net Client) r a : Prop := p_lists s = Some a \/ (old_lists (w_pc s) = Some a /\ may r (w_pc s)).

  Definition good (d : data Net) st (from : nat) (x : Client * nat * nat) : Prop :=
    let '(c, v, p) := x in exists vv, nth_error (pubs d) v = Some vv /\ cont st p (says choose default vv c) /\ from <= S v.
  Definition pc_ok L (s : state Net Client) d r from (pc : rpc Client) : Prop :=
    let st := strings (h s) in
    match pc with
    | Nothing => True
    | HasTree c t => p_lists s <> None /\ holds_tree s r t /\ exists o, nth_error (trees (h s)) t = Some (Some o) /\ tree_ok L st d o /\ from <= S (v_no o)
    | HasIndex c v i => p_lists s <> None /\ exists p, nth_error L i = Some p /\ good d st from (c, v, p)
    | HasArray c v i a => holds_arr s r a /\ exists l p, nth_error (arrays (h s)) a = Some (Some l) /\ nth_error l i = Some p /\ good d st from (c, v, p)
    | Early _ | EarlyTree _ _ _ => False
    end.
  Definition reader_ok L s d r (x : reader Client) : Prop :=
    (r_in x = false -> r_pc x = Nothing /\ r_held x = []) /\ r_from x <= versions s /\
    pc_ok L s d r (r_from x) (r_pc x) /\ Forall (good d (strings (h s)) (r_from x)) (r_held x).

  Definition alive {A} (l : list (option A)) (p cur : option nat) : Prop :=
    forall q, p = Some q -> (exists x, nth_error l q = Some (Some x)) /\ cur <> Some q.
  Definition w_ok (L M : list nat) (s : state Net Client) : Prop :=
    match w_pc s with
    | Idle => True
    | Lists t ot ol => pend s <> None /\ L = M /\ p_lists s <> None /\ t = {| t_geo := geo s; t_nets := nets s; v_no := versions s |} /\ ot = p_tree s /\ alive (arrays (h s)) ol (p_lists s)
    | Tree ot ol | Sync _ ot ol => pend s <> None /\ L = M /\ p_lists s <> None /\ alive (trees (h s)) ot (p_tree s) /\ alive (arrays (h s)) ol (p_lists s)
    end.

  Record inv_at (L M : list nat) (s : state Net Client) (d : data Net) : Prop := {
    i_live : Forall (fun p => exists c, cont (strings (h s)) p c) M;
    i_def : has_default default M (strings (h s));
    i_pend : match pend s with Some x => d_list x = M | None => L = M /\ p_lists s <> None end;
    i_lists : forall a, p_lists s = Some a -> nth_error (arrays (h s)) a = Some (Some L) /\ (exists t, M = L ++ t) /\ has_default default L (strings (h s));
    i_geo : geo_ok M (strings (h s)) (geo s) (s_geo d);
    i_nets : nl_ok M (strings (h s)) (nets s) (s_nets d);
    i_tree : forall t, p_tree s = Some t -> p_lists s <> None /\ exists o, nth_error (trees (h s)) t = Some (Some o) /\ tree_ok L (strings (h s)) d o /\ S (v_no o) = versions s;
    i_vers : length (pubs d) = versions s;
    i_w : w_ok L M s;
    i_r : forall r x, nth_error (readers s) r = Some x -> reader_ok L s d r x;
    i_a : Forall (right choose default d) (answers s) }.
  Definition inv s d : Prop := exists L M, inv_at L M s d.

  Lemma default_mono L t st st' : (forall p c, cont st p c -> cont st' p c) -> has_default default L st -> has_default default (L ++ t) st'.
  Proof. intros H (p & A & B). exists p. split; [now apply nth_app1|auto]. Qed.
  Lemma tree_mono L t st st' (d d' : data Net) (o : tree Net) : (forall p c, cont st p c -> cont st' p c) -> (forall v x, nth_error (pubs d) v = Some x -> nth_error (pubs d') v = Some x) ->
    tree_ok L st d o -> tree_ok (L ++ t) st' d' o.
  Proof. intros H P (g & n & A & B & C). exists g, n. split; [auto|]. split; [now apply geo_mono with st|now apply nl_mono with st]. Qed.
  Lemma good_mono st st' (d d' : data Net) from x : (forall p c, cont st p c -> cont st' p c) -> (forall v x, nth_error (pubs d) v = Some x -> nth_error (pubs d') v = Some x) ->
    good d st from x -> good d' st' from x.
  Proof. destruct x as [[c v] p]. intros H P (vv & A & B & C). exists vv. auto. Qed.
  Lemma right_mono (d d' : data Net) a : (forall v x, nth_error (pubs d) v = Some x -> nth_error (pubs d') v = Some x) -> right choose default d a -> right choose default d' a.
  Proof. intros P (v & A & B & C). exists v. auto. Qed.

  Lemma reader_mono L t s s' (d d' : data Net) r x :
    (forall p c, cont (strings (h s)) p c -> cont (strings (h s')) p c) ->
    (forall v x, nth_error (pubs d) v = Some x -> nth_error (pubs d') v = Some x) ->
    (p_lists s <> None -> p_lists s' <> None) ->
    (forall q o, holds_tree s r q -> nth_error (trees (h s)) q = Some (Some o) -> holds_tree s' r q /\ nth_error (trees (h s')) q = Some (Some o)) ->
    (forall q o, holds_arr s r q -> nth_error (arrays (h s)) q = Some (Some o) -> holds_arr s' r q /\ nth_error (arrays (h s')) q = Some (Some o)) ->
    versions s <= versions s' ->
    reader_ok L s d r x -> reader_ok (L ++ t) s' d' r x.
  Proof.
    intros HS HP HL HT HA HV (A & B & C & D). split; [exact A|]. split; [lia|]. split.
    - destruct (r_pc x) as [|c q|c v i|c v i a|a|c q a]; cbn [pc_ok] in *; auto.
      + destruct C as (C1 & C2 & o & C3 & C4 & C5). destruct (HT q o C2 C3) as [H1 H2]. split; [auto|]. split; [exact H1|]. exists o. split; [exact H2|]. split; [now apply tree_mono with (strings (h s)) d|exact C5].
      + destruct C as (C1 & p & C2 & C3). split; [auto|]. exists p. split; [now apply nth_app1|]. now apply good_mono with (strings (h s)) d.
      + destruct C as (C1 & l & p & C2 & C3 & C4). destruct (HA a l C1 C2) as [H1 H2]. split; [exact H1|]. exists l, p. split; [exact H2|]. split; [exact C3|]. now apply good_mono with (strings (h s)) d.
    - eapply Forall_impl; [|exact D]. intros y. now apply good_mono.
  Qed.

  Lemma kill_new (st : list (option dclist)) news : kill_strings (st ++ map Some news) (seq (length st) (length news)) = Ok (st ++ repeat None (length news)).
  Proof.
    revert st. induction news as [|n news IH]; intros st; cbn [length seq map kill_strings repeat]; [reflexivity|].
    unfold kill at 1. rewrite (live_eq _ _ (nth_snoc' _ _ _)). cbn [rbind].
    replace (upd (st ++ Some n :: map Some news) (length st) None) with ((st ++ [None]) ++ map Some news).
    - replace (S (length st)) with (length (st ++ [@None dclist])) by (rewrite app_length; cbn; lia). rewrite IH. now rewrite <- app_assoc.
    - clear IH. induction st as [|a st IH]; cbn [app length upd]; [reflexivity|]. now rewrite IH.
  Qed.

  Lemma seen_failed (s s' : state Net Client) g f d : seen s s' (Load g f false) d = d.
  Proof. now destruct g. Qed.
  Lemma load_inv L M s d g f ok : inv_at L M s d -> w_pc s = Idle ->
    exists s', do_load s g f ok = Ok s' /\ inv s' (seen s s' (Load g f ok) d).
  Proof.
    intros [IL ID IP IS IG IN IT IV IW IR IA] W. unfold do_load.
    assert (DL : exists dl, match pend s with
            | Some d => Ok d
            | None => match p_lists s with None => UB | Some p => do l <- live (arrays (h s)) p; Ok {| d_list := l; d_old := length l |} end
            end = Ok dl /\ d_list dl = M /\ (pend s = None -> d_old dl = length M)).
    { destruct (pend s) as [x|]; [now exists x|]. destruct IP as [-> NP]. destruct (p_lists s) as [a|]; [|congruence].
      destruct (IS a eq_refl) as (E & _). rewrite (live_eq _ _ E). cbn [rbind]. eexists. split; [reflexivity|]. now split. }
    destruct DL as (dl & -> & EM & EO). cbn [rbind]. rewrite <- EM in IL.
    destruct (load_file_ok f (h s) dl IL) as (nl & news & -> & NL). cbn [rbind]. rewrite EM in *.
    set (st' := strings (h s) ++ map Some news) in *. set (M' := M ++ seq (length (strings (h s))) (length news)) in *.
    assert (ST : forall p c, cont (strings (h s)) p c -> cont st' p c) by (intros; now apply cont_app).
    assert (IL' : Forall (fun p => exists c, cont st' p c) M').
    { apply Forall_app. split; [now apply live_app|]. apply Forall_forall. intros p I. apply in_seq in I. unfold cont, st'. rewrite nth_error_app2 by lia.
      destruct (nth_error (map Some news) (p - length (strings (h s)))) as [o|] eqn:E; [|apply nth_error_None in E; rewrite map_length in E; lia].
      rewrite nth_error_map in E. destruct (nth_error news _); [|discriminate]. injection E as <-. eauto. }
    assert (HT : forall s' r q (o : tree Net), w_pc s' = w_pc s -> p_tree s' = p_tree s -> trees (h s') = trees (h s) -> holds_tree s r q -> nth_error (trees (h s)) q = Some (Some o) -> holds_tree s' r q /\ nth_error (trees (h s')) q = Some (Some o)).
    { intros s' r q o E1 E2 E3 X Y. unfold holds_tree in *. rewrite E1, E2, E3. auto. }
    assert (HA : forall s' r q (o : list nat), w_pc s' = w_pc s -> p_lists s' = p_lists s -> arrays (h s') = arrays (h s) -> holds_arr s r q -> nth_error (arrays (h s)) q = Some (Some o) -> holds_arr s' r q /\ nth_error (arrays (h s')) q = Some (Some o)).
    { intros s' r q o E1 E2 E3 X Y. unfold holds_arr in *. rewrite E1, E2, E3. auto. }
    assert (KEEP : forall s' d', strings (h s') = st' -> arrays (h s') = arrays (h s) -> trees (h s') = trees (h s) -> w_pc s' = w_pc s -> p_tree s' = p_tree s -> p_lists s' = p_lists s ->
              versions s' = versions s -> readers s' = readers s -> answers s' = answers s -> pubs d' = pubs d ->
              pend s' = Some {| d_list := M'; d_old := d_old dl |} ->
              geo_ok M' st' (geo s') (s_geo d') -> nl_ok M' st' (nets s') (s_nets d') -> inv s' d').
    { intros s' d' E1 E2 E3 E4 E5 E6 E7 E8 E9 E10 E11 G N. exists L, M'.
      assert (PB : forall v x, nth_error (pubs d) v = Some x -> nth_error (pubs d') v = Some x) by now rewrite E10.
      constructor; rewrite ?E1; auto.
      - now apply default_mono with (strings (h s)).
      - now rewrite E11.
      - intros a. rewrite E6, E2. intros Ea. destruct (IS a Ea) as (A & (t & B) & C). split; [exact A|]. split; [exists (t ++ seq (length (strings (h s))) (length news)); unfold M'; now rewrite B, <- app_assoc|].
        rewrite <- (app_nil_r L). now apply default_mono with (strings (h s)).
      - intros t. rewrite E5, E6, E3, E7. intros Et. destruct (IT t Et) as (A & o & B & C & D). split; [exact A|]. exists o. split; [exact B|]. split; [|exact D]. rewrite <- (app_nil_r L). now apply tree_mono with (strings (h s)) d.
      - now rewrite E10, E7.
      - unfold w_ok. now rewrite E4, W.
      - intros r x. rewrite E8. intros Ex. rewrite <- (app_nil_r L). apply reader_mono with s d; rewrite ?E1, ?E6, ?E7; auto.
      - rewrite E9. eapply Forall_impl; [|exact IA]. intros a. now apply right_mono. }
    assert (GM : geo_ok M' st' (geo s) (s_geo d)) by now apply geo_mono with (strings (h s)).
    assert (NM : nl_ok M' st' (nets s) (s_nets d)) by now apply nl_mono with (strings (h s)).
    destruct ok.
    { eexists. split; [reflexivity|]. unfold seen, idle. rewrite W. destruct g; apply KEEP; try reflexivity; cbn [geo nets s_geo s_nets]; auto. }
    destruct (pend s) as [x|] eqn:EP.
    { eexists. split; [reflexivity|]. rewrite seen_failed. apply KEEP; reflexivity || auto. }
    cbn [d_old d_list]. rewrite (EO eq_refl).
    replace (skipn (length M) M') with (seq (length (strings (h s))) (length news)) by (unfold M'; rewrite skipn_app, skipn_all, Nat.sub_diag; reflexivity).
    cbn [strings]. unfold st'. rewrite kill_new. cbn [rbind]. eexists. split; [reflexivity|]. rewrite seen_failed.
    exists L, M. set (st2 := strings (h s) ++ repeat None (length news)).
    assert (ST2 : forall p c, cont (strings (h s)) p c -> cont st2 p c) by (intros; now apply cont_app).
    destruct IP as [-> NP].
    constructor; cbn [h strings arrays trees p_tree p_lists pend geo nets versions w_pc readers answers]; fold st2; auto.
    - now apply live_app.
    - rewrite <- (app_nil_r M). now apply default_mono with (strings (h s)).
    - intros a Ea. destruct (IS a Ea) as (A & B & C). split; [exact A|]. split; [exact B|]. rewrite <- (app_nil_r M). now apply default_mono with (strings (h s)).
    - rewrite <- (app_nil_r M). now apply geo_mono with (strings (h s)).
    - rewrite <- (app_nil_r M). now apply nl_mono with (strings (h s)).
    - intros t Et. destruct (IT t Et) as (A & o & B & C & D). split; [exact A|]. exists o. split; [exact B|]. split; [|exact D]. rewrite <- (app_nil_r M). now apply tree_mono with (strings (h s)) d.
    - unfold w_ok. cbn [w_pc]. now rewrite W.
    - intros r x Ex. rewrite <- (app_nil_r M). apply reader_mono with s d; auto.
  Qed.
End Inv.
