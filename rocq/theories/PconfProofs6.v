(** weighted *)
From Coq Require Import String Permutation ZArith.
From Verif Require Import Base DnameModel DnameSpec DnameProofs CompModel CompProofs RespModel MonModel VscfModel VscfSpec OptModel VhashModel VhashSpec PlugModel PlugSpec PlugProofs2 MsgModel MsgProofs2 MsgProofs3 RespProofs5 ZdirProofs3 PconfModel PconfSpec PconfProofs PconfProofs2 PconfProofs3 PconfProofs4 PconfProofs5.
Local Open Scope nat_scope.
Local Open Scope list_scope.
Local Notation length := List.length.
Ltac Zify.zify_post_hook ::= idtac.

Lemma w_keys_nodup : NoDup w_keys.
Proof. repeat constructor; cbn; intuition discriminate. Qed.

(** ** Sums *)
Definition fine (g : list w_addr) : Prop := g <> [] /\ length g <= 64 /\ Forall (fun a => 1 <= wa_weight a <= 1048575)%N g.
Lemma total_concat gs : total (map wa_weight (concat gs)) = total (map (fun g => total (map wa_weight g)) gs).
Proof. induction gs as [|g gs IH]; [reflexivity|]. cbn [concat map]. rewrite map_app, total_app, IH. reflexivity. Qed.
Lemma group_total g : fine g -> (1 <= total (map wa_weight g) <= 64 * 1048575)%N.
Proof.
  intros (NE & L & F). split.
  - destruct g as [|a g]; [contradiction|]. inversion F; subst. cbn [map total fold_right]. lia.
  - assert (H := total_le (map wa_weight g) 1048575 64). rewrite map_length in H. change (N.of_nat 64) with 64%N in H. apply H; [|exact L]. apply Forall_map. eapply Forall_impl; [|exact F]. cbn. lia.
Qed.
Lemma item_weight g : fine g -> wi_weight (mk_item g) = total (map wa_weight g).
Proof. intros F. cbn. apply sum32_eq. pose proof (group_total g F). unfold two32. lia. Qed.
Lemma set_total gs : Forall fine gs -> length gs <= 64 -> gs <> [] -> (0 < total (map wa_weight (concat gs)) < 2 ^ 32)%N /\
  sum32 (map wi_weight (map mk_item gs)) = total (map wa_weight (concat gs)).
Proof.
  intros F L NE. assert (E : map wi_weight (map mk_item gs) = map (fun g => total (map wa_weight g)) gs). { rewrite map_map. apply map_ext_in. intros g I. rewrite Forall_forall in F. now apply item_weight, F. }
  assert (B : (0 < total (map wa_weight (concat gs)) < 2 ^ 32)%N).
  { rewrite total_concat. split.
    - destruct gs as [|g gs]; [contradiction|]. inversion F as [|? ? FG _]; subst. pose proof (group_total g FG). cbn [map total fold_right]. lia.
    - assert (H := total_le (map (fun g => total (map wa_weight g)) gs) (64 * 1048575) 64). rewrite map_length in H. change (N.of_nat 64) with 64%N in H. change (2 ^ 32)%N with 4294967296%N.
      enough (total (map (fun g => total (map wa_weight g)) gs) <= 64 * (64 * 1048575))%N by lia. apply H; [|exact L]. apply Forall_map. eapply Forall_impl; [|exact F]. cbn. intros g FG. pose proof (group_total g FG). lia. }
  split; [exact B|]. rewrite E, total_concat. apply sum32_eq. rewrite total_concat in B. apply B.
Qed.
Lemma largest_pos' l : l <> [] -> Forall (fun x => 1 <= x)%N l -> (0 < max_of l)%N.
Proof. intros NE F. rewrite max_of_eq. pose proof (largest_in l NE) as I. rewrite Forall_forall in F. specialize (F _ I). lia. Qed.
Lemma set_asserts multi gs : Forall fine gs -> length gs <= 64 -> gs <> [] ->
  forallb (fun i => negb (wi_weight i =? 0)%N && negb (wi_max i =? 0)%N) (ws_items (mk_set (fun w => w) multi gs)) = true /\
  negb (ws_weight (mk_set (fun w => w) multi gs) =? 0)%N && negb (ws_max (mk_set (fun w => w) multi gs) =? 0)%N = true.
Proof.
  intros F L NE. split.
  - apply forallb_forall. cbn [ws_items mk_set]. intros i I. apply in_map_iff in I as (g & <- & I). rewrite Forall_forall in F. specialize (F g I). pose proof (group_total g F) as T. rewrite (item_weight g F). cbn [wi_max mk_item].
    assert (0 < max_of (map wa_weight g))%N. { destruct F as (NG & _ & FW). apply largest_pos'; [destruct g; [contradiction|discriminate]|]. apply Forall_map. eapply Forall_impl; [|exact FW]. cbn. lia. }
    rewrite (proj2 (N.eqb_neq _ 0)), (proj2 (N.eqb_neq (max_of (map wa_weight g)) 0)) by lia. reflexivity.
  - destruct (set_total gs F L NE) as (B & E). cbn [ws_weight ws_max mk_set]. rewrite E.
    assert (0 < max_of (map wi_weight (map mk_item gs)))%N. { apply largest_pos'; [destruct gs; [contradiction|discriminate]|]. rewrite map_map. apply Forall_map. eapply Forall_impl; [|exact F]. cbn beta. intros g FG. rewrite (item_weight g FG). apply (group_total g FG). }
    rewrite (proj2 (N.eqb_neq (total _) 0)), (proj2 (N.eqb_neq (max_of _) 0)) by lia. reflexivity.
Qed.

(** ** Data of a set *)
Lemma inherit_id k parent t : (value k parent <> None -> value k t <> None) -> inherit k parent t = t.
Proof. intros H. unfold inherit, inherited. destruct (value k parent); [|reflexivity]. destruct (value k t); [reflexivity|]. exfalso. apply H; congruence. Qed.
Record w_tab (h : hash) (outer : list hash) (t : tab) : Prop := {
  wt_keys : NoDup (keys t);
  wt_said : forall k, In k w_keys -> as_said k (h :: outer) (value k t);
  wt_marks : exists D, marked_by D t /\ forall k, In k D -> In k w_keys \/ ~ In k (keys t);
  wt_list : plain w_keys t = map (fun e => (fst e, fresh (snd e))) (others w_keys h) }.
Lemma w_tab_mark h outer t k : In k w_keys \/ ~ In k (keys t) -> w_tab h outer t -> w_tab h outer (mark k t).
Proof.
  intros I [N S (D & M & DM) L]. split.
  - now rewrite keys_mark.
  - intros k' I'. rewrite value_mark. now apply S.
  - exists (k :: D). split; [now apply marked_mark|]. intros k' [<-|J]; rewrite keys_mark; auto.
  - now rewrite plain_mark.
Qed.
Lemma w_tab_grown h outer P y : distinct (VH h) -> grown w_keys P (ftab h) y -> (forall k, In k w_keys -> as_said k outer (value k P)) -> w_tab h outer y.
Proof.
  intros D G A. pose proof (grown_marks _ _ _ _ (ftab_marks h) G) as (N & M). split; [exact N| | |].
  - intros k I. eapply said_own; [exact I|exact G|now apply A].
  - exists []. split; [exact M|]. intros k [].
  - unfold plain. apply (others_grown w_keys w_keys P h y (fun k I => I) G).
Qed.
Lemma w_tab_inherit h outer parent : distinct (VH h) -> (forall k, In k w_keys -> as_said k outer (value k parent)) -> (forall k v, value k parent = Some v -> vok v) ->
  w_tab h outer (inherit k_thresh parent (inherit k_multi parent (inherit k_types parent (ftab h)))).
Proof.
  intros D A VO. apply (w_tab_grown h outer parent); [exact D| |exact A]. apply (grown_ext [k_thresh; k_multi; k_types]); [intros k; cbn; tauto|].
  apply inherit_step; [apply VO|cbn; intuition discriminate|]. apply inherit_step; [apply VO|cbn; intuition discriminate|]. apply inherit_step; [apply VO|cbn; intuition|]. apply grown_start, ftab_ok, D.
Qed.
Lemma w_unmarked h outer t : w_tab h outer t -> unmarked (mark k_thresh (mark k_multi (mark k_types t))) = map (fun e => (fst e, fresh (snd e))) (others w_keys h) /\
  unmarked (mark k_multi (mark k_thresh (mark k_types t))) = map (fun e => (fst e, fresh (snd e))) (others w_keys h).
Proof.
  intros [N S (D & M & DM) L]. rewrite <- L.
  assert (G : forall a b c, [a; b; c] = [k_thresh; k_multi; k_types] \/ [a; b; c] = [k_multi; k_thresh; k_types] -> unmarked (mark a (mark b (mark c t))) = plain w_keys t).
  { intros a b c H. rewrite (unmarked_by (a :: b :: c :: D)) by (do 3 apply marked_mark; exact M). change (plain (a :: b :: c :: D) (mark a (mark b (mark c t))) = plain w_keys t). rewrite !plain_mark. apply plain_ext.
    intros k IK. split.
    - intros [<-|[<-|[<-|J]]]; [| | |destruct (DM k J) as [X|X]; [exact X|contradiction]]; destruct H as [[= -> -> ->]|[= -> -> ->]]; cbn; tauto.
    - intros J. destruct H as [[= -> -> ->]|[= -> -> ->]]; cbn in J |- *; tauto. }
  split; apply G; auto.
Qed.
Lemma w_number h outer t : w_tab h outer t ->
  length (filter (fun k => some (value k t)) w_keys) + length (others w_keys h) = length t.
Proof.
  intros [N _ _ L]. rewrite <- (count_params w_keys t w_keys_nodup N). f_equal. apply (f_equal (@length _)) in L. unfold plain in L. rewrite !map_length in L. symmetry. exact L.
Qed.
Lemma fresh_copy v : copy true (fresh v) = fresh v.
Proof.
  revert v. fix IH 1. intros [r s|l|h]; cbn; [reflexivity| |].
  - f_equal. induction l as [|x l IHl]; [reflexivity|]. cbn. now rewrite IH, IHl.
  - f_equal. induction h as [|e h IHl]; [reflexivity|]. cbn. now rewrite IH, IHl.
Qed.

Section Weighted.
  Variable gai : bytes -> option addr.
  Variable strtod : bytes -> option dbl.
  Variable service : bytes -> option (bool * bool).
  Notation gives := (gives service).
  Notation calm := (calm strtod).

  Definition pair_says (v : vnode) : option (vnode * N) := match v with VA [VS r s; w] => let? n <- weight w ; Some (VS r s, n) | _ => None end.
  Lemma pair_gives s0 v : gives s0 (read_pair (fresh v)) (pair_says v) (fun _ a b => fst a = fresh (fst b) /\ snd a = snd b /\ (exists r s, fst b = VS r s) /\ (1 <= snd a <= 1048575)%N).
  Proof.
    destruct v as [r s|l|h]; try apply gives_fatal. destruct l as [|[r s|l1|h1] l]; try apply gives_fatal. destruct l as [|w l]; try apply gives_fatal. destruct l as [|w' l]; [|cbn; destruct w; apply gives_fatal].
    destruct w as [r' w|l1|h1]; try apply gives_fatal. cbn [fresh map read_pair pair_says weight]. destruct (as_long w) as [z|]; [|apply gives_fatal].
    destruct (Z.ltb_spec z 1); cbn [orb].
    { destruct (Z.leb_spec 1 z); [lia|]. apply gives_fatal. }
    destruct (Z.leb_spec 1 z); [|lia]. cbn [andb]. destruct (Z.ltb_spec 1048575 z), (Z.leb_spec z 1048575); try lia; [apply gives_fatal|].
    apply gives_ret. intros s1 _. cbn. split; [reflexivity|]. split; [reflexivity|]. split; [eauto|lia].
  Qed.
  Definition wa_good (s : state) (svcs : list bytes) (x : w_addr) (p : addr * N) : Prop := wa_made s svcs p x /\ (1 <= wa_weight x <= 1048575)%N.
  Lemma wa_good_later s s' svcs x p : later s s' -> wa_good s svcs x p -> wa_good s' svcs x p.
  Proof. intros L ((A & B & C) & D). split; [|exact D]. split; [exact A|]. split; [exact B|]. eapply all_monitors_later; eauto. Qed.
  Lemma one_gives s0 v6 svcs v : gives s0 (w_one gai service v6 svcs (fresh v)) (weighted_addr gai service v6 svcs v) (fun s x p => wa_good s svcs x p).
  Proof.
    unfold w_one. apply gives_eq with (o := obind (pair_says v) (fun p => obind (address gai (fst p)) (fun a => obind (need (Bool.eqb v6 (is6 a))) (fun _ => obind (watched service svcs (OnAddr a)) (fun _ => Some (a, snd p)))))).
    { unfold weighted_addr, pair_says. destruct v as [r s|l|h]; try reflexivity. destruct l as [|[r s|l1|h1] l]; try reflexivity. destruct l as [|w l]; try reflexivity. destruct l as [|w' l]; [|reflexivity].
      destruct (weight w); [|reflexivity]. cbn [obind fst snd]. unfold address_in. destruct (address gai (VS r s)); [|reflexivity]. cbn [obind]. destruct (need _); [|reflexivity]. cbn [obind]. destruct (watched _ _ _); reflexivity. }
    eapply gives_bind; [apply pair_gives|]. intros s1 (x, n) (y, n') L1 (E1 & E2 & _ & B). cbn [fst snd] in *. subst x n'.
    eapply gives_bind; [apply addr_gives; reflexivity|]. intros s2 a ? L2 <-. apply (gives_check service s2 (Bool.eqb v6 (is6 a))). intros _.
    eapply gives_bind; [apply mons_give|]. intros s3 idx [] L3 MO. apply gives_ret. intros s4 L4. split; [|exact B]. split; [reflexivity|]. split; [reflexivity|]. cbn. eapply all_monitors_later; eauto.
  Qed.
  Definition made_group (s : state) (svcs : list bytes) (g : list w_addr) (p : list (addr * N)) : Prop := Forall2 (wa_made s svcs) p g /\ fine g.
  Lemma made_group_later s s' svcs g p : later s s' -> made_group s svcs g p -> made_group s' svcs g p.
  Proof. intros L (A & B). split; [|exact B]. clear B. induction A as [|x y l l' (E1 & E2 & M) A IH]; constructor; [|exact IH]. split; [exact E1|]. split; [exact E2|]. eapply all_monitors_later; eauto. Qed.
  Lemma Forall2_same {A} (l : list A) : Forall2 eq l l.
  Proof. induction l; constructor; auto. Qed.
  Lemma group_gives s0 v6 svcs v : labelled v -> gives s0 (w_group gai service v6 svcs (fresh v)) (group_says gai service v6 svcs v) (fun s g p => made_group s svcs g p).
  Proof.
    intros LA. destruct v as [r s|l|h]; try apply gives_fatal. rewrite fresh_hash. cbn [w_group group_says]. assert (LF : length (ftab h) = length h) by apply map_length. rewrite LF.
    apply gives_eq with (o := obind (need (negb (length h =? 0))) (fun _ => obind (need (length h <=? 64)) (fun _ => all (fun e => weighted_addr gai service v6 svcs (snd e)) h))).
    { destruct (all (fun e => weighted_addr gai service v6 svcs (snd e)) h) as [g|] eqn:E; cbn [obind].
      - apply all_length in E. rewrite E. destruct (length h) as [|n]; [reflexivity|]. cbn [Nat.eqb negb need obind Nat.leb andb]. destruct (n <=? 63); reflexivity.
      - destruct (need _); [|reflexivity]. cbn. destruct (length h <=? 64); reflexivity. }
    apply gives_check. intros NZ. apply gives_check. intros LE.
    assert (UM : unmarked (ftab h) = map (fun e => (fst e, fresh (snd e))) h). { rewrite (unmarked_by [] _ (ftab_marks h)). rewrite (filter_ext_in _ (fun _ => true)), filter_all by reflexivity. unfold ftab. rewrite map_map. reflexivity. }
    rewrite UM, map_length. apply gives_asserted; [apply Nat.eqb_refl|].
    apply negb_true_iff, Nat.eqb_neq in NZ. apply Nat.leb_le in LE. inversion LA as [| |? FL]; subst.
    intros s LS SS. pose proof (gives_mapm service (fun a b => fst b <> [] /\ a = (fst b, fresh (snd b))) (fun e => let* _ <- asserted (match fst e with [] => false | _ => true end) ; w_one gai service v6 svcs (snd e))
      (fun e => weighted_addr gai service v6 svcs (snd e)) (fun s x p => wa_good s svcs x p) (map (fun e => (fst e, fresh (snd e))) h) h) as G.
    specialize (G (fun s s' x p L => wa_good_later s s' svcs x p L)).
    assert (F2 : Forall2 (fun a b => fst b <> [] /\ a = (fst b, fresh (snd b))) (map (fun e => (fst e, fresh (snd e))) h) h). { clear -FL. induction FL as [|e h (NE & _) FL IH]; constructor; auto. }
    specialize (G F2 s0). assert (G' := fun H => G H s LS SS). clear G.
    lapply G'; clear G'.
    - intros G. destruct (mapm _ _ s) as [[[g s1]|]|]; [|exact G|exact G]. destruct G as (p & E & R & X). exists p. split; [exact E|]. split; [|exact X].
      assert (LG : length g = length h). { apply all_length in E. rewrite <- E. clear -R. induction R; [reflexivity|]. cbn. now f_equal. }
      split; [|split; [intros ->; cbn in LG; lia|split; [lia|]]]; clear -R; induction R as [|a b l l' (X & Y) R IH]; constructor; auto.
    - intros s1 a b L1 (NE & ->). cbn [fst snd]. apply gives_asserted; [destruct (fst b); [contradiction|reflexivity]|]. apply one_gives.
  Qed.
  Lemma entries_give s0 v6 svcs (h : hash) : Forall (fun e => labelled (snd e)) h ->
    gives s0 (w_entries gai service v6 svcs (map (fun e => (fst e, fresh (snd e))) h)) (groups_say gai service v6 svcs (map snd h)) (fun s gs ps => Forall2 (fun p g => made_group s svcs g p) ps gs).
  Proof.
    intros LA. destruct h as [|(k, v) h]; [apply gives_ret; constructor|].
    assert (MONO : mono (fun s g p => made_group s svcs g p)) by (intros s s' a b; apply made_group_later).
    assert (PAIRS : forall l : hash, Forall (fun e => labelled (snd e)) l -> Forall2 (fun a b => labelled b /\ snd a = fresh b) (map (fun e => (fst e, fresh (snd e))) l) (map snd l)). { intros l F. induction F; constructor; cbn; auto. }
    specialize (PAIRS _ LA).
    assert (GR : gives s0 (mapm (fun e => w_group gai service v6 svcs (snd e)) (map (fun e => (fst e, fresh (snd e))) ((k, v) :: h))) (all (group_says gai service v6 svcs) (map snd ((k, v) :: h))) (fun s gs ps => Forall2 (fun p g => made_group s svcs g p) ps gs)).
    { eapply (gives_mapm service _ _ _ _ _ _ MONO PAIRS). intros s1 a b L1 (LB & ->). now apply group_gives. }
    assert (SI : gives s0 (mapm (fun e => let* a <- w_one gai service v6 svcs (snd e) ; ret [a]) (map (fun e => (fst e, fresh (snd e))) ((k, v) :: h))) (all (fun x => let? a <- weighted_addr gai service v6 svcs x ; Some [a]) (map snd ((k, v) :: h))) (fun s gs ps => Forall2 (fun p g => made_group s svcs g p) ps gs)).
    { eapply (gives_mapm service _ _ _ _ _ _ MONO PAIRS). intros s1 a b L1 (LB & ->). eapply gives_bind; [apply one_gives|]. intros s2 x p L2 R. apply gives_ret. intros s3 L3. destruct (wa_good_later _ _ _ _ _ L3 R) as (X & Y).
      split; [constructor; [exact X|constructor]|]. split; [discriminate|]. split; [cbn; lia|]. constructor; [exact Y|constructor]. }
    destruct v as [r s|l|g]; [|exact SI|exact GR]. intros s1 _ _. reflexivity.
  Qed.

  Definition w_good (s : state) (x : w_set) (w : w_want) : Prop := w_made s w x /\ Forall (fun g => length g <= 64) (ww_groups w) /\ length (ww_groups w) <= 64 /\ w_count x = w_size w.
  Lemma w_made_later s s' w x : later s s' -> w_made s w x -> w_made s' w x.
  Proof.
    intros L (up & gs & E & F & P). exists up, gs. split; [exact E|]. split; [|exact P]. clear -L F. induction F as [|p g l l' A F IH]; constructor; [|exact IH].
    induction A as [|x y m m' (E1 & E2 & M) A IHA]; constructor; [|exact IHA]. split; [exact E1|]. split; [exact E2|]. eapply all_monitors_later; eauto.
  Qed.
  Lemma w_good_later s s' w x : later s s' -> w_good s x w -> w_good s' x w.
  Proof. intros L (A & B). split; [eapply w_made_later; eauto|exact B]. Qed.
  Lemma made_weights s svcs ps gs : Forall2 (fun p g => made_group s svcs g p) ps gs -> map wa_weight (concat gs) = map snd (concat ps) /\ Forall fine gs /\ Forall2 (Forall2 (wa_made s svcs)) ps gs /\ map (@length _) gs = map (@length _) ps.
  Proof.
    intros F. split; [|split; [|split]].
    - induction F as [|p g ps gs (A & _) F IH]; [reflexivity|]. cbn [concat]. rewrite !map_app, IH. f_equal. clear -A. induction A as [|x y l l' (_ & E & _) A IH]; [reflexivity|]. cbn. now rewrite E, IH.
    - induction F as [|p g ps gs (_ & A) F IH]; constructor; auto.
    - induction F as [|p g ps gs (A & _) F IH]; constructor; auto.
    - induction F as [|p g ps gs (A & _) F IH]; [reflexivity|]. cbn. f_equal; [|exact IH]. clear -A. induction A; [reflexivity|]. cbn. now f_equal.
  Qed.
  Lemma most_groups gs m : fold_left (fun m i => if Nat.ltb m (length (wi_as i)) then length (wi_as i) else m) (map mk_item gs) m = Nat.max m (list_max (map (@length _) gs)).
  Proof. revert m. induction gs as [|g gs IH]; intros m; cbn [map fold_left]; [change (list_max []) with 0; lia|]. rewrite IH. cbn [mk_item wi_as]. change (list_max (length g :: map (@length _) gs)) with (Nat.max (length g) (list_max (map (@length _) gs))). destruct (Nat.ltb_spec m (length g)); lia. Qed.
  Lemma w_count_is scale multi gs : w_count (mk_set scale multi gs) = if multi then length gs else list_max (map (@length _) gs).
  Proof. unfold w_count. cbn [ws_multi ws_items mk_set]. destruct multi; [apply map_length|]. rewrite most_groups. reflexivity. Qed.

  Lemma w_num h outer t : w_tab h outer t ->
    let minus (k : bytes) (n : nat) := match value k t with Some _ => (n - 1)%nat | None => n end in
    minus k_thresh (minus k_multi (minus k_types (length t))) = length (others w_keys h) /\ minus k_multi (minus k_thresh (minus k_types (length t))) = length (others w_keys h).
  Proof.
    intros T. pose proof (w_number _ _ _ T) as C. cbv beta zeta. set (o := length (others w_keys h)) in *. clearbody o. unfold w_keys in C. cbn [filter] in C. revert C. repeat match goal with |- context [value ?k t] => destruct (value k t) end; cbn [some length]; intros C; split; lia.
  Qed.

  Lemma addrset_gives s0 v6 h outer t parent : calm (h :: outer) -> w_tab h outer (inherit k_thresh parent (inherit k_multi parent (inherit k_types parent t))) -> labelled (VH h) ->
    gives s0 (w_addrset gai strtod service v6 t parent) (w_set_says gai strtod service v6 h outer) (fun s x w => w_good s x w).
  Proof.
    intros CA T LA. unfold w_addrset, w_set_says. set (t' := inherit _ _ _) in *. clearbody t'. clear t parent. cbv beta zeta.
    pose proof (wt_said _ _ _ T) as S. pose proof (w_num _ _ _ T) as (NUM & _). cbv beta zeta in NUM. rewrite NUM. clear NUM. destruct (w_unmarked _ _ _ T) as (UM & _). rewrite UM, map_length. clear UM.
    eapply gives_bind; [apply svcs_give, S; cbn; auto|]. intros s1 svcs ? L1 <-.
    eapply gives_bind; [apply bool_gives, S; cbn; auto|]. intros s2 multi ? L2 <-.
    eapply gives_bind; [apply thresh_gives; [exact CA|apply S; cbn; auto]|]. intros s3 d (m, e) L3 (-> & RG). cbn [fst snd] in RG.
    set (os := others w_keys h) in *.
    apply gives_eq with (o := obind (need (length os <=? 64)) (fun _ => obind (need (negb (length os =? 0))) (fun _ => obind (groups_say gai service v6 svcs (map snd os)) (fun gs => Some {| ww_svcs := svcs; ww_multi := multi; ww_part := (m, e); ww_groups := gs |})))).
    { destruct (groups_say gai service v6 svcs (map snd os)) as [gs|] eqn:E; cbn [obind].
      - assert (LG : length gs = length os). { unfold groups_say in E. destruct (map snd os) as [|[| |] l] eqn:EM; apply all_length in E; rewrite <- EM, map_length in E; exact E. }
        rewrite LG. destruct (length os) as [|n]; [reflexivity|]. cbn [Nat.leb Nat.eqb negb andb]. destruct (n <=? 63); reflexivity.
      - destruct (need (length os <=? 64)); [|reflexivity]. cbn. destruct (need (negb _)); reflexivity. }
    apply gives_check. intros LE. apply gives_check. intros NZ. apply Nat.leb_le in LE. apply negb_true_iff, Nat.eqb_neq in NZ.
    apply gives_asserted; [apply Nat.eqb_refl|].
    assert (LO : Forall (fun e => labelled (snd e)) os). { inversion LA as [| |? F]; subst. unfold os, others. apply Forall_forall. intros x I. apply filter_In in I as (I & _). rewrite Forall_forall in F. now apply F. }
    eapply gives_bind'; [apply entries_give; exact LO|]. intros s4 gs ps L4 EP R. cbn beta in R. destruct (made_weights _ _ _ _ R) as (EW & FI & FM & EL).
    assert (LP : length ps = length os). { unfold groups_say in EP. destruct (map snd os) as [|[| |] l] eqn:EM; apply all_length in EP; rewrite <- EM, map_length in EP; exact EP. }
    assert (LG : length gs = length ps). { apply (f_equal (@length _)) in EL. rewrite !map_length in EL. exact EL. }
    assert (NE : gs <> []) by (intros ->; cbn in LG; lia). assert (L64 : length gs <= 64) by lia.
    destruct (set_asserts multi gs FI L64 NE) as (A1 & A2). destruct (set_total gs FI L64 NE) as (B & TW).
    apply gives_asserted; [exact A1|]. apply gives_asserted; [exact A2|].
    destruct (uscale_ok (total (map wa_weight (concat gs))) m e B RG) as (u & U & PU). cbn [ws_weight mk_set]. rewrite TW. eapply gives_lift; [exact U|].
    apply gives_asserted. { destruct PU as ((P1 & _) & _). apply negb_true_iff, N.eqb_neq. lia. }
    apply gives_ret. intros s5 L5. split; [apply (w_made_later s4 s5); [exact L5|]; exists u, gs; split; [reflexivity|]; split; [exact FM|cbn [ww_groups ww_part fst snd]; rewrite <- EW; exact PU]|].
    cbn [ww_groups]. split; [|split; [lia|]].
    - apply Forall_forall. intros p I. assert (J : In (length p) (map (@length _) gs)) by (rewrite EL; now apply in_map). apply in_map_iff in J as (g & EG & J). rewrite Forall_forall in FI. destruct (FI g J) as (_ & X & _). lia.
    - rewrite w_count_is. unfold w_size. cbn [ww_multi ww_groups]. rewrite EL, LG. reflexivity.
  Qed.

  (** Names *)
  Variable fq_name : bytes -> option name.
  Hypothesis fq_name_is : forall t ls, all_bytes t -> (fq_name t = Some ls <-> name_text t ls true /\ legal_name ls).
  Variable junk : bytes.
  Hypothesis junk_len : length junk = 256.

  Lemma name_gives s0 svcs v : raw_bytes v -> gives s0 (w_cname_item service junk svcs (fresh v)) (weighted_name service fq_name svcs v)
    (fun s i p => (wc_name i = fst p /\ wc_weight i = snd p /\ Forall2 (monitors s (OnName (dname (fst p) true))) svcs (wc_idx i)) /\ (1 <= wc_weight i <= 1048575)%N).
  Proof.
    intros RB. unfold w_cname_item.
    apply gives_eq with (o := obind (pair_says v) (fun p => match fst p with VS r _ => obind (fq_name r) (fun d => obind (watched service svcs (OnName (dname d true))) (fun _ => Some (d, snd p))) | _ => None end)).
    { unfold weighted_name, pair_says. destruct v as [r s|l|h]; try reflexivity. destruct l as [|[r s|l1|h1] l]; try reflexivity. destruct l as [|w l]; try reflexivity. destruct l as [|w' l]; [|reflexivity]. destruct (weight w); reflexivity. }
    eapply gives_bind'; [apply pair_gives|]. intros s1 (x, n) (y, n') L1 EP (E1 & E2 & (r & s & EY) & B). cbn [fst snd] in *. subst x n' y. cbn [fresh].
    assert (AB : all_bytes r). { unfold pair_says in EP. destruct v as [| l|]; try discriminate. destruct l as [|[r' s'| |] l]; try discriminate. destruct l as [|w l]; try discriminate. destruct l; try discriminate. destruct (weight w); [|discriminate]. injection EP as -> -> _.
      inversion RB as [|? F|]; subst. inversion F as [|? ? RX _]; subst. inversion RX; subst. assumption. }
    destruct (from_string_total junk r junk_len AB) as (st & out & E & LO & SO & CO). eapply gives_lift; [exact E|]. cbn beta.
    destruct (status_eqb st DNAME_VALID) eqn:SE.
    - assert (SV : st = DNAME_VALID) by (destruct st; [reflexivity|discriminate|discriminate]). subst st. destruct SO as (ls & rest & TX & LL & EO); [discriminate|].
      cbn in TX, EO. rewrite (proj2 (fq_name_is r ls AB) (conj TX LL)). cbn [obind]. destruct (dup_ok ls rest) as (R1 & R2). rewrite EO.
      eapply gives_lift; [exact R1|]. cbn beta. eapply gives_lift; [rewrite Nat2N.id; exact R2|]. cbn beta.
      eapply gives_bind; [apply mons_give|]. intros s2 idx [] L2 MO. apply gives_ret. intros s3 L3. cbn [wc_name wc_weight wc_idx fst snd]. split; [|exact B]. split; [|split; [reflexivity|eapply all_monitors_later; eauto]].
      rewrite dname_tl. apply labels_of_wn; [apply LL|]. pose proof (legal_count _ (proj1 LL)) as X. destruct LL as (_ & LL). lia.
    - replace (fq_name r) with (@None name). { destruct st; [discriminate|apply gives_fatal|apply gives_fatal]. }
      symmetry. destruct (fq_name r) as [ls|] eqn:EF; [|reflexivity]. apply fq_name_is in EF; [|exact AB]. destruct EF as (TX & LL). destruct (CO ls true TX LL) as (-> & _). discriminate.
  Qed.
  Lemma c_made_later s s' w x : later s s' -> c_made s w x -> c_made s' w x.
  Proof. intros L (up & its & E & F & P). exists up, its. split; [exact E|]. split; [|exact P]. clear -L F. induction F as [|p g l l' (A & B & C) F IH]; constructor; [|exact IH]. split; [exact A|]. split; [exact B|]. eapply all_monitors_later; eauto. Qed.

  Lemma cnameset_gives s0 h outer t : calm (h :: outer) -> w_tab h outer t -> raw_bytes (VH h) -> gives s0 (w_cnameset strtod service junk t) (c_set_says strtod service fq_name h outer) (fun s x w => c_made s w x).
  Proof.
    intros CA T RB. unfold w_cnameset, c_set_says. cbv beta zeta.
    pose proof (wt_said _ _ _ T) as S. pose proof (w_num _ _ _ T) as (_ & NUM). cbv beta zeta in NUM. rewrite NUM. clear NUM. destruct (w_unmarked _ _ _ T) as (_ & UM). rewrite UM, map_length. clear UM.
    eapply gives_bind; [apply svcs_give, S; cbn; auto|]. intros s1 svcs ? L1 <-.
    eapply gives_bind; [apply thresh_gives; [exact CA|apply S; cbn; auto]|]. intros s3 d (m, e) L3 (-> & RG). cbn [fst snd] in RG.
    set (os := others w_keys h) in *.
    apply gives_eq with (o := obind (need (length os <=? 64)) (fun _ => obind (need (negb (length os =? 0))) (fun _ => obind (all (weighted_name service fq_name svcs) (map snd os)) (fun ns => Some {| cw_svcs := svcs; cw_part := (m, e); cw_names := ns |})))).
    { destruct (all (weighted_name service fq_name svcs) (map snd os)) as [gs|] eqn:E; cbn [obind].
      - apply all_length in E. rewrite map_length in E. rewrite E. destruct (length os) as [|n]; [reflexivity|]. cbn [Nat.leb Nat.eqb negb andb]. destruct (n <=? 63); reflexivity.
      - destruct (need (length os <=? 64)); [|reflexivity]. cbn. destruct (need (negb _)); reflexivity. }
    apply gives_check. intros LE. apply gives_check. intros NZ. apply Nat.leb_le in LE. apply negb_true_iff, Nat.eqb_neq in NZ.
    apply gives_asserted; [apply Nat.eqb_refl|].
    assert (LO : Forall (fun e => raw_bytes (snd e)) os). { inversion RB as [| |? F]; subst. unfold os, others. apply Forall_forall. intros x I. apply filter_In in I as (I & _). rewrite Forall_forall in F. now apply F. }
    assert (PAIRS : Forall2 (fun a b => raw_bytes b /\ snd a = fresh b) (map (fun e => (fst e, fresh (snd e))) os) (map snd os)). { clear -LO. induction LO; constructor; cbn; auto. }
    eapply gives_bind'; [eapply (gives_mapm service _ _ _ (fun s i p => (wc_name i = fst p /\ wc_weight i = snd p /\ Forall2 (monitors s (OnName (dname (fst p) true))) svcs (wc_idx i)) /\ (1 <= wc_weight i <= 1048575)%N) _ _ _ PAIRS)|].
    { intros s5 a b L5 (RB5 & ->). now apply name_gives. }
    intros s4 its ns L4 EN R. cbn beta in R. apply all_length in EN. rewrite map_length in EN. assert (LI : length its = length ns) by (clear -R; induction R; [reflexivity|]; cbn; now f_equal).
    assert (FW : Forall (fun w => 1 <= w <= 1048575)%N (map wc_weight its)). { apply Forall_map. clear -R. induction R as [|a b l l' (_ & B) R IH]; constructor; auto. }
    assert (EW : map wc_weight its = map snd ns). { clear -R. induction R as [|a b l l' ((_ & E & _) & _) R IH]; [reflexivity|]. cbn. now rewrite E, IH. }
    assert (B : (0 < total (map wc_weight its) < 2 ^ 32)%N).
    { split.
      - destruct (map wc_weight its) as [|w ws] eqn:EM; [apply (f_equal (@length _)) in EM; rewrite map_length in EM; cbn in EM; lia|]. inversion FW; subst. cbn [total fold_right]. lia.
      - assert (H := total_le (map wc_weight its) 1048575 64). rewrite map_length in H. change (N.of_nat 64) with 64%N in H. change (2 ^ 32)%N with 4294967296%N. enough (total (map wc_weight its) <= 64 * 1048575)%N by lia. apply H; [|lia].
        eapply Forall_impl; [|exact FW]. cbn. lia. }
    assert (TW : sum32 (map wc_weight its) = total (map wc_weight its)) by (apply sum32_eq; apply B). rewrite TW.
    apply gives_asserted. { apply andb_true_intro. split; [|apply negb_true_iff, N.eqb_neq; lia]. apply forallb_forall. intros i I. rewrite Forall_map, Forall_forall in FW. specialize (FW i I). apply negb_true_iff, N.eqb_neq. lia. }
    destruct (uscale_ok (total (map wc_weight its)) m e B RG) as (u & U & PU). eapply gives_lift; [exact U|].
    apply gives_ret. intros s5 L5. apply (c_made_later s4 s5); [exact L5|]. exists u, its. split; [reflexivity|]. cbn [cw_names cw_part cw_svcs fst snd]. split; [clear -R; induction R as [|a b l l' (X & _) R IH]; constructor; auto|]. rewrite <- EW. exact PU.
    Unshelve. intros s s' i p L ((A & B & C) & D). split; [|exact D]. split; [exact A|]. split; [exact B|]. eapply all_monitors_later; eauto.
  Qed.

  Definition what_good (s : state) (x : w_what) (w : what_want) : Prop :=
    match w, x with
    | WantNames c, WNames y => c_made s c y
    | WantAddrs a4 a6, WAddrs y4 y6 => maybe (fun a y => w_good s y a) a4 y4 /\ maybe (fun a y => w_good s y a) a6 y6
    | _, _ => False
    end.
  Lemma what_good_later s s' x w : later s s' -> what_good s x w -> what_good s' x w.
  Proof.
    intros L. destruct w as [c|a4 a6], x as [y|y4 y6]; cbn; try tauto; [now apply c_made_later|]. intros (A & B). split; (eapply maybe_mono; [|eassumption]); intros; eapply w_good_later; eauto.
  Qed.
  Lemma copy_true D t : marked_by D t -> copy true (TH t) = TH (map (fun e => (fst e, false, copy true (snd e))) (plain D t)).
  Proof. intros M. cbn. f_equal. unfold plain. induction M as [|e t E M IH]; [reflexivity|]. cbn [flat_map filter]. rewrite E. destruct (among D (key e)); cbn [negb app map]; [exact IH|]. cbn [fst snd]. now rewrite IH. Qed.
  Lemma auto_gives s0 h plugin t parent : calm [h; plugin] -> w_tab h [plugin] t -> labelled (VH h) -> raw_bytes (VH h) -> (forall k, In k w_keys -> as_said k [plugin] (value k parent)) ->
    gives s0 (w_auto gai strtod service junk t parent) (w_direct_says gai strtod service fq_name h plugin) what_good.
  Proof.
    intros CA T LA RB A. unfold w_auto. set (t' := mark k_thresh (mark k_multi (mark k_types t))). assert (T' : w_tab h [plugin] t') by (do 3 (apply w_tab_mark; [cbn; auto|]); exact T).
    assert (CP : copy true (TH t') = TH (map (fun e => (fst e, false, fresh (snd e))) (others w_keys h))).
    { destruct T as [_ _ (D & M & DM) L]. rewrite (copy_true (k_thresh :: k_multi :: k_types :: D)) by (do 3 apply marked_mark; exact M). unfold t'. rewrite !plain_mark.
      rewrite (plain_ext _ w_keys), L. { rewrite map_map. f_equal. apply map_ext. intros e. cbn. now rewrite fresh_copy. }
      intros k IK. split; [|intros J; cbn in J |- *; tauto]. intros [<-|[<-|[<-|J]]]; [cbn; tauto|cbn; tauto|cbn; tauto|]. destruct (DM k J) as [X|X]; [exact X|contradiction]. }
    assert (INH : forall k, In k w_keys -> inherit k parent t' = t').
    { intros k I. apply inherit_id. intros NP NT. apply NP. specialize (A k I). pose proof (wt_said _ _ _ T' k I) as B. unfold as_said in *. rewrite NT in B. cbn [setting] in A, B. destruct (get k h); [discriminate|].
      destruct (get k plugin); [discriminate|]. destruct (value k parent); [discriminate|reflexivity]. }
    assert (FAM : forall s a, gives s (w_fam gai strtod service (a_is6 a) t' parent) (let? w <- w_set_says gai strtod service (is6 a) h [plugin] ; Some (if is6 a then WantAddrs None (Some w) else WantAddrs (Some w) None)) what_good).
    { intros s a. unfold w_fam. eapply gives_bind; [apply addrset_gives with (outer := [plugin]); [exact CA|rewrite !INH by (cbn; auto); exact T'|exact LA]|]. intros s1 x w L1 R. apply gives_ret. intros s2 L2. change (a_is6 a) with (is6 a).
      destruct (is6 a); cbn; (split; [try exact Logic.I|try exact Logic.I]); eapply w_good_later; eauto. }
    rewrite CP. unfold w_direct_says. destruct (others w_keys h) as [|(k, v) os] eqn:EO; [apply gives_fatal|]. cbn [map fst snd].
    destruct v as [r x|l|g]; cbn [fresh].
    - apply gives_fatal.
    - destruct l as [|[r x|l1|g1] l]; cbn [map fresh first_text obind]; try apply gives_fatal. destruct (gai (c_str x)) as [a|]; [apply FAM|].
      eapply gives_bind; [apply cnameset_gives; [exact CA|exact T'|exact RB]|]. intros s1 c w L1 R. apply gives_ret. intros s2 L2. cbn. eapply c_made_later; eauto.
    - destruct g as [|(k1, y) g]; [apply gives_fatal|]. cbn [map fst snd]. destruct y as [r x|l|g1]; cbn [fresh first_text obind]; try apply gives_fatal.
      destruct l as [|[r x|l1|g1] l]; cbn [map fresh first_text obind]; try apply gives_fatal. cbn [read_addr]. 
      apply gives_eq with (o := obind (gai (c_str x)) (fun a => let? w <- w_set_says gai strtod service (is6 a) h [plugin] ; Some (if is6 a then WantAddrs None (Some w) else WantAddrs (Some w) None))); [reflexivity|].
      destruct (gai (c_str x)) as [a|]; [|intros ? ? ?; reflexivity]. exact (FAM s0 a).
  Qed.
  Lemma wfamily_gives s0 v6 o outer parent : calm outer -> match o with Some v => no_nan strtod v /\ distinct v /\ labelled v | None => True end -> (forall k, In k w_keys -> as_said k outer (value k parent)) -> (forall k v, value k parent = Some v -> vok v) ->
    gives s0 (w_family gai strtod service v6 (option_map fresh o) parent) (w_family_says gai strtod service v6 o outer) (fun s x w => maybe (fun a y => w_good s y a) w x).
  Proof.
    intros CO DL A VO. destruct o as [[r x|l|h]|]; try apply gives_fatal; [|apply gives_ret; intros; exact Logic.I]. cbn [option_map]. rewrite fresh_hash. cbn [w_family w_family_says]. destruct DL as (CV & D & LA).
    eapply gives_bind; [apply addrset_gives with (outer := outer); [constructor; [exact CV|exact CO]|now apply w_tab_inherit|exact LA]|]. intros s1 x w L1 R. apply gives_ret. intros s2 L2. cbn. eapply w_good_later; eauto.
  Qed.
  Lemma get_labelled k h v : labelled (VH h) -> get k h = Some v -> labelled v.
  Proof. intros S. inversion S as [| |? F]; subst. clear S. induction F as [|e h (_ & E) F IH]; [discriminate|]. destruct e as [k' v']. cbn. destruct (bytes_eqb k k'); [intros [= <-]; exact E|exact IH]. Qed.

  Lemma w_res_gives s0 plugin P t1 k v x : no_nan strtod (VH plugin) -> no_nan strtod v -> distinct v -> labelled v -> raw_bytes v -> rel1 w_keys P v x -> (forall k, In k w_keys -> as_said k [plugin] (value k P)) -> (forall k, In k w_keys -> as_said k [plugin] (value k t1)) ->
    gives s0 (w_config_res gai strtod service junk t1 (k, x)) (let? w <- w_res_says gai strtod service fq_name plugin v ; Some (c_str k, w)) (fun s a b => fst a = fst b /\ what_good s (snd a) (snd b)).
  Proof.
    intros CP CV D LA RB H A AT. destruct v as [r y|l|h]; [cbn in H; subst x; apply gives_fatal|cbn in H; subst x; apply gives_fatal|].
    destruct H as (x' & -> & G). unfold w_config_res. cbn [fst snd].
    assert (VK : forall k, ~ In k w_keys -> value k x' = option_map fresh (get k h)) by (intros k' NK; rewrite (grown_other _ _ _ _ _ NK G); apply ftab_value).
    assert (NV4 : ~ In k_v4 w_keys) by (cbn; intuition discriminate). assert (NV6 : ~ In k_v6 w_keys) by (cbn; intuition discriminate). assert (NCN : ~ In (txt "cnames") w_keys) by (cbn; intuition discriminate).
    rewrite !VK by assumption. clear VK. set (t := mark (txt "cnames") (mark k_v6 (mark k_v4 x'))).
    pose proof (w_tab_grown h [plugin] P x' D G A) as T. destruct (grown_keys _ _ _ _ G) as (ek & K & IE). pose proof (grown_marks _ _ _ _ (ftab_marks h) G) as (N & M). pose proof (grown_inner _ _ _ _ D G) as (_ & IO).
    assert (AT' : forall k, In k w_keys -> as_said k [h; plugin] (value k t)). { intros k' I. unfold t. rewrite !value_mark. apply (wt_said _ _ _ T k' I). }
    assert (VT' : forall k v, value k t = Some v -> vok v).
    { intros k' v'. unfold t. rewrite !value_mark. intros V. assert (IV : exists e, In e x' /\ snd e = v'). { clear -V. induction x' as [|((a, m), w) x' IH]; [discriminate|]. cbn in V. destruct (same k' a); [injection V as <-; eexists; split; [left; reflexivity|reflexivity]|]. destruct (IH V) as (e & I & E). exists e. split; [now right|exact E]. }
      destruct IV as (e & I & <-). rewrite Forall_forall in IO. specialize (IO e I). destruct (snd e); cbn in *; try exact Logic.I. apply IO. }
    assert (NI : forall k, ~ In k w_keys -> get k h = None -> ~ In k (keys x')). { intros k' NK GN I. rewrite K in I. apply in_app_iff in I as [I|I]; [|apply NK, IE, I]. rewrite <- ftab_keys in I. apply value_in in I. apply I. now rewrite ftab_value, GN. }
    cbn [w_res_says].
    apply gives_eq with (o := obind (need (match option_map fresh (get (txt "cnames") h) with None => true | Some _ => false end)) (fun _ => obind (match get k_v4 h, get k_v6 h with
        | None, None => w_direct_says gai strtod service fq_name h plugin
        | c4, c6 =>
            let? _ <- need (only_b (k_v4 :: k_v6 :: w_keys) h) ;
            let? w4 <- w_family_says gai strtod service false c4 [h; plugin] ;
            let? w6 <- w_family_says gai strtod service true c6 [h; plugin] ;
            Some (WantAddrs w4 w6)
        end) (fun w => Some (c_str k, w)))). { destruct (get (txt "cnames") h); reflexivity. }
    apply gives_check. intros NC. assert (GC : get (txt "cnames") h = None) by (destruct (get (txt "cnames") h); [discriminate|reflexivity]). clear NC.
    assert (BODY : gives s0
      match option_map fresh (get k_v4 h), option_map fresh (get k_v6 h) with
      | None, None => w_auto gai strtod service junk t t1
      | _, _ =>
          let* p4 <- w_family gai strtod service false (option_map fresh (get k_v4 h)) t ;
          let* p6 <- w_family gai strtod service true (option_map fresh (get k_v6 h)) t ;
          let* _ <- check (match unmarked (mark k_thresh (mark k_multi (mark k_types t))) with [] => true | _ => false end) ;
          ret (WAddrs p4 p6)
      end
      (match get k_v4 h, get k_v6 h with
        | None, None => w_direct_says gai strtod service fq_name h plugin
        | c4, c6 =>
            let? _ <- need (only_b (k_v4 :: k_v6 :: w_keys) h) ;
            let? w4 <- w_family_says gai strtod service false c4 [h; plugin] ;
            let? w6 <- w_family_says gai strtod service true c6 [h; plugin] ;
            Some (WantAddrs w4 w6)
        end) what_good).
    { assert (DL : forall k, match get k h with Some v => no_nan strtod v /\ distinct v /\ labelled v | None => True end). { intros k'. destruct (get k' h) eqn:E; [|exact Logic.I]. split; [eapply calm_get; eauto|]. split; [eapply get_distinct; eauto|eapply get_labelled; eauto]. }
      assert (UN : match unmarked (mark k_thresh (mark k_multi (mark k_types t))) with [] => true | _ => false end = only_b (k_v4 :: k_v6 :: w_keys) h).
      { erewrite unmarked_nil; [|unfold t; do 6 apply marked_mark; exact M|unfold t; rewrite !keys_mark; exact K|].
        - unfold only_b. rewrite <- (others_cons_absent _ (k_v4 :: k_v6 :: w_keys) _ GC). erewrite others_ext; [reflexivity|]. intros k'. cbn. tauto.
        - intros k' I. specialize (IE k' I). cbn in *. tauto. }
      assert (FAMS : gives s0
          (let* p4 <- w_family gai strtod service false (option_map fresh (get k_v4 h)) t ;
           let* p6 <- w_family gai strtod service true (option_map fresh (get k_v6 h)) t ;
           let* _ <- check (match unmarked (mark k_thresh (mark k_multi (mark k_types t))) with [] => true | _ => false end) ;
           ret (WAddrs p4 p6))
          (let? w4 <- w_family_says gai strtod service false (get k_v4 h) [h; plugin] ;
            let? w6 <- w_family_says gai strtod service true (get k_v6 h) [h; plugin] ;
            let? _ <- need (match unmarked (mark k_thresh (mark k_multi (mark k_types t))) with [] => true | _ => false end) ;
            Some (WantAddrs w4 w6)) what_good).
      { eapply gives_bind; [apply wfamily_gives; [constructor; [exact CV|constructor; [exact CP|constructor]]|apply DL|exact AT'|exact VT']|]. intros s1 p4 w4 L1 R4. cbn beta in R4. eapply gives_bind; [apply wfamily_gives; [constructor; [exact CV|constructor; [exact CP|constructor]]|apply DL|exact AT'|exact VT']|]. intros s2 p6 w6 L2 R6. cbn beta in R6.
        apply gives_check. intros _. apply gives_ret. intros s3 L3. cbn. split.
        - eapply maybe_mono; [|exact R4]. cbn beta. intros a b W. eapply w_good_later; [|exact W]. eapply later_trans; eauto.
        - eapply maybe_mono; [|exact R6]. cbn beta. intros a b W. eapply w_good_later; [|exact W]. exact L3. }
      rewrite UN in FAMS. rewrite UN.
      destruct (get k_v4 h) as [v4|] eqn:G4; cbn [option_map] in *; [|destruct (get k_v6 h) as [v6|] eqn:G6; cbn [option_map] in *].
      1, 2: (eapply gives_eq; [|exact FAMS]; destruct (only_b (k_v4 :: k_v6 :: w_keys) h); cbn [need obind]; (destruct (w_family_says gai strtod service false _ _); [cbn [obind]|reflexivity]); destruct (w_family_says gai strtod service true _ _); reflexivity).
      apply auto_gives; [constructor; [exact CV|constructor; [exact CP|constructor]]| |exact LA|exact RB|exact AT]. unfold t. apply w_tab_mark; [right; rewrite !keys_mark; now apply NI|]. apply w_tab_mark; [right; rewrite !keys_mark; now apply NI|]. apply w_tab_mark; [right; now apply NI|exact T]. }
    eapply gives_bind; [exact BODY|]. intros s1 y w L1 R. apply gives_ret. intros s2 L2. cbn. split; [reflexivity|]. eapply what_good_later; eauto.
  Qed.

  Lemma w_size_small x w s : w_good s x w -> w_size w <= 64.
  Proof.
    intros (_ & F & L & _). unfold w_size. destruct (ww_multi w); [exact L|]. apply list_max_le. apply Forall_map. exact F.
  Qed.
  Lemma made_list s s' (ws : list (bytes * what_want)) (rs : list (bytes * w_what)) : later s s' -> Forall2 (fun c b => fst b = fst c /\ what_good s (snd b) (snd c)) ws rs -> Forall2 (fun w r => fst w = fst r /\ what_made s' (snd w) (snd r)) ws rs.
  Proof.
    intros LS R. induction R as [|a b l l' (X & Y) R IH]; constructor; [|exact IH]. split; [now symmetry|]. apply (what_good_later _ _ _ _ LS) in Y. destruct (snd a) as [c|a4 a6], (snd b) as [y|y4 y6]; cbn in *; try tauto.
    destruct Y as (Y4 & Y6). split; (eapply maybe_mono; [|eassumption]); intros ? ? (Z & _); exact Z.
  Qed.
  Theorem weighted_gives s0 h : no_nan strtod (VH h) -> distinct (VH h) -> labelled (VH h) -> raw_bytes (VH h) ->
    gives s0 (weighted_load gai strtod service junk (Some (fresh (VH h)))) (weighted_says gai strtod service fq_name h)
      (fun s rs ws => Forall2 (fun w r => fst w = fst r /\ what_made s (snd w) (snd r)) ws rs /\ Forall (fun w => roomy s w_size (sets_of (snd w))) ws).
  Proof.
    intros CA D LA RB. rewrite fresh_hash. cbn [weighted_load]. destruct (resources_of w_keys h w_keys_nodup D) as (t & -> & L & LU & F & E). rewrite L. unfold weighted_says.
    apply gives_asserted; [now apply Nat.eqb_eq|].
    apply gives_eq with (o := obind (all (fun e => let? w <- w_res_says gai strtod service fq_name h (snd e) ; Some (c_str (fst e), w)) (others w_keys h)) (fun ws => obind (obind (need true) (fun _ => Some tt)) (fun _ => Some ws))). { destruct (all _ _); reflexivity. }
    assert (AT : forall k, In k w_keys -> as_said k [h] (value k t)). { intros k I. unfold as_said. rewrite (evolved_value _ _ _ _ _ E). apply said_top. }
    eapply gives_bind.
    - eapply (gives_mapm service _ _ _ (fun s a b => fst a = fst b /\ what_good s (snd a) (snd b))).
      + intros s s' a b LS (X & Y). split; [exact X|]. eapply what_good_later; eauto.
      + eapply (Forall2_and_l (fun e => no_nan strtod (snd e) /\ distinct (snd e) /\ labelled (snd e) /\ raw_bytes (snd e))); [|exact F]. inversion LA as [| |? FL]; subst. inversion RB as [| |? FR]; subst. apply Forall_forall. intros e I. pose proof (others_distinct w_keys h D) as FD. pose proof (calm_others strtod w_keys h CA) as FC. rewrite Forall_forall in *. split; [now apply FC|].
        split; [now apply FD|]. unfold others in I. apply filter_In in I as (I & _). split; [now apply FL|now apply FR].
      + cbn beta. intros s1 (k, x) (k', v) L1 ((CV & DV & LV & RV) & K & R). cbn [fst snd] in *. subst k'. eapply w_res_gives; [exact CA|exact CV|exact DV|exact LV|exact RV|exact R|intros; apply said_top|exact AT].
    - cbn beta. intros s1 rs ws L1 R. set (m4 := most _). set (m6 := most _).
      assert (SAME : forall (sel : option w_want * option w_want -> option w_want) (sel' : w_what -> option w_set), (forall w x, what_good s1 x w -> maybe (fun a y => w_good s1 y a) (sel (sets_of w)) (sel' x)) ->
        map (fun r => option_map w_count (sel' (snd r))) rs = map (fun w => option_map w_size (sel (sets_of (snd w)))) ws /\ Forall (fun w => forall a, sel (sets_of (snd w)) = Some a -> w_size a <= 64) ws).
      { intros sel sel' HS. clear -R HS. induction R as [|a b l l' (_ & X) R IH]; [split; [reflexivity|constructor]|]. destruct IH as (IH1 & IH2). specialize (HS _ _ X). split.
        - cbn. f_equal; [|exact IH1]. destruct (sel (sets_of (snd a))), (sel' (snd b)); try contradiction; [|reflexivity]. cbn. f_equal. apply HS.
        - constructor; [|exact IH2]. intros w EW. rewrite EW in HS. destruct (sel' (snd b)) as [y|]; [|contradiction]. eapply w_size_small; exact HS. }
      destruct (SAME fst fam4) as (E4 & B4). { intros [c|a4 a6] [y|y4 y6]; cbn; tauto. } destruct (SAME snd fam6) as (E6 & B6). { intros [c|a4 a6] [y|y4 y6]; cbn; tauto. }
      assert (X4 : m4 = most (map (fun w => option_map w_size (fst (sets_of (snd w)))) ws)) by (unfold m4; now rewrite E4). assert (X6 : m6 = most (map (fun w => option_map w_size (snd (sets_of (snd w)))) ws)) by (unfold m6; now rewrite E6).
      assert (S4 : (m4 <= 64)%N). { rewrite X4, most_iff, Forall_map. eapply Forall_impl; [|exact B4]. cbn. intros w HW. destruct (fst (sets_of (snd w))); cbn; [|exact Logic.I]. specialize (HW _ eq_refl). lia. }
      assert (S6 : (m6 <= 64)%N). { rewrite X6, most_iff, Forall_map. eapply Forall_impl; [|exact B6]. cbn. intros w HW. destruct (snd (sets_of (snd w))); cbn; [|exact Logic.I]. specialize (HW _ eq_refl). lia. }
      eapply gives_bind; [apply (dyn_addr_max_gives service s1 m4 m6 tt true (fun s _ _ => m4 <= lim4 s /\ m6 <= lim6 s)%N); [|auto]|].
      + destruct (N.ltb_spec 360 m4), (N.ltb_spec 360 m6); first [reflexivity | lia].
      + intros s2 [] [] L2 (C4 & C6). apply gives_ret. intros s3 L3. split.
        * eapply made_list; [|exact R]. eapply later_trans; eauto.
        * destruct L3 as (_ & Z4 & Z6). rewrite X4 in C4. rewrite X6 in C6. apply most_iff in C4. apply most_iff in C6. rewrite Forall_map in C4, C6. rewrite Forall_forall in *. intros w I. specialize (C4 w I). specialize (C6 w I).
          split; intros a EA; rewrite EA in *; cbn in *; lia.
  Qed.
End Weighted.
