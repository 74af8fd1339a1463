(** Proofs about trees of hash tables *)
From Coq Require Import Permutation Lia.
From Verif Require Import Base CompModel CompProofs OptModel VhashModel VhashSpec VhashProofs.
Local Open Scope N_scope.

Section Tree.
  Variable mm3 : bytes -> N.
  Local Notation wf := (wf mm3).

  Inductive good : vdata -> Prop :=
  | G_simple r v : good (DS r v)
  | G_array l : (forall x, In x l -> good x) -> good (DA l)
  | G_hash h ord es : wf h ord es -> (forall e, In e es -> good (hval e)) -> good (DH h).

  Lemma skip_true ig m : negb ig || negb m = true -> ig && m = false.
  Proof. now destruct ig, m. Qed.
  Lemma skip_false ig m : negb ig || negb m = false -> ig && m = true.
  Proof. now destruct ig, m. Qed.

  Definition trow (e : hentry vdata) : bytes * bool * tree := (hkey e, hmark e, tree_of (hval e)).
  Definition trows (es : list (hentry vdata)) := map trow es.

  Lemma tree_hash h ord es : wf h ord es -> tree_of (DH h) = TH (trows es).
  Proof.
    intros W. cbn [tree_of]. f_equal. destruct (w_slots _ _ _ _ W) as (pad & ->). rewrite flat_map_app.
    assert (Z : forall f : option nat -> list (bytes * bool * tree), f None = [] -> flat_map f (repeat None pad) = []).
    { intros f F. induction pad as [|p IH]; [reflexivity|]. cbn. now rewrite F, IH. }
    rewrite Z, app_nil_r by reflexivity. clear Z.
    pose proof (w_points _ _ _ _ W) as F. change (map _ (heap h)) with (map trow (heap h)).
    unfold trows. clear W pad. induction F as [|id e ord es P F IH]; [reflexivity|]. cbn [map flat_map].
    rewrite nth_error_map. unfold points in P. rewrite P. cbn [option_map app]. now rewrite IH.
  Qed.

  Definition vals (es : list (hentry vdata)) := map snd (rows es).
  Lemma in_vals es v : In v (vals es) <-> exists e, In e es /\ hval e = v.
  Proof.
    unfold vals, rows. rewrite map_map. rewrite in_map_iff. cbn. split; intros (e & A & B); exists e; auto.
  Qed.

  Lemma good_hash h ord es : wf h ord es -> (forall v, In v (vals es) -> good v) -> good (DH h).
  Proof. intros W G. eapply G_hash; [eassumption|]. intros e I. apply G, in_vals. eauto. Qed.

  Lemma good_inv h : good (DH h) -> exists ord es, wf h ord es /\ forall v, In v (vals es) -> good v.
  Proof.
    intros G. inversion G as [| |? ord es W V]; subst. exists ord, es. split; [assumption|]. intros v I. apply in_vals in I as (e & I & <-). auto.
  Qed.

  Lemma trows_rows es : trows es = map (fun x => (fst x, tree_of (snd x))) (rows es).
  Proof. unfold trows, rows. rewrite map_map. reflexivity. Qed.

  Lemma value_map {A B} (f : A -> B) k (t : table A) : value k (map (fun x => (fst x, f (snd x))) t) = option_map f (value k t).
  Proof. induction t as [|[[k' m] v] t IH]; [reflexivity|]. cbn [map value fst snd]. destruct (same k k'); [reflexivity|apply IH]. Qed.

  Lemma value_trows k es : value k (trows es) = option_map tree_of (value k (rows es)).
  Proof. rewrite trows_rows. apply value_map. Qed.

  Lemma value_in k (t : table vdata) v : value k t = Some v -> In v (map snd t).
  Proof. induction t as [|[[k' m] v'] t IH]; [discriminate|]. cbn [value map snd]. destruct (same k k'); [intros [= ->]; now left|right; auto]. Qed.

  Lemma add_tree (h : vhash vdata) ord es k v : wf h ord es -> child_count h < 2 ^ 31 - 1 ->
    exists b h' ord' es', hash_add_val mm3 k v h = Ok (b, h') /\ wf h' ord' es' /\
      match value k (rows es) with
      | Some _ => b = false /\ es' = es
      | None => b = true /\ rows es' = rows es ++ [(k, false, v)]
      end.
  Proof.
    intros W L. destruct (add_ok _ _ _ _ k v W L) as [A B]. destruct (in_dec same k (map hkey es)) as [I|N].
    - destruct (A I) as (h' & E & W'). exists false, h', ord, es. split; [assumption|]. split; [assumption|].
      apply in_map_iff in I as (e & <- & I). apply In_nth_error in I as (p & I).
      destruct (value_some _ _ _ (wf_nodup _ _ _ _ W) I) as [-> _]. auto.
    - destruct (B N) as (h' & E & W'). exists true, h'. eexists _, _. split; [eassumption|]. split; [eassumption|].
      destruct (value_none _ _ N) as [-> _]. split; [reflexivity|]. unfold rows. rewrite map_app. reflexivity.
  Qed.

  Lemma count_rows {h : vhash vdata} {ord es} : wf h ord es -> child_count h = N.of_nat (length es).
  Proof. intros W. rewrite <- (rows_length _ _ _ _ W). unfold rows. now rewrite map_length. Qed.

  (** ** Copies *)

  Definition copied (ig : bool) (e : bytes * bool * tree) : list (bytes * bool * tree) :=
    if ig && snd (fst e) then [] else [(fst (fst e), false, copy ig (snd e))].

  Lemma copied_keys ig t k : In k (keys (flat_map (copied ig) t)) -> In k (keys t).
  Proof.
    induction t as [|e t IH]; [intros []|]. cbn [flat_map]. unfold keys, copied at 1. rewrite map_app. intros I. apply in_app_or in I as [I|I].
    - left. destruct (ig && _); [destruct I|]. destruct I as [<-|[]]. reflexivity.
    - right. apply IH. exact I.
  Qed.

  Lemma value_not_in {A} k (t : table A) : ~ In k (keys t) -> value k t = None.
  Proof.
    induction t as [|[[k' m] v] t IH]; [reflexivity|]. cbn. intros N. destruct (same k k') as [->|]; [exfalso; apply N; now left|]. apply IH. intros I. apply N. now right.
  Qed.
  Lemma value_keys {A} k (t : table A) v : value k t = Some v -> In k (keys t).
  Proof. intros E. destruct (in_dec same k (keys t)) as [I|N]; [assumption|]. rewrite value_not_in in E by assumption. discriminate. Qed.

  Lemma keys_trows es : keys (trows es) = map hkey es.
  Proof. unfold keys, trows. rewrite map_map. reflexivity. Qed.

  Lemma value_trows_none k es : value k (trows es) = None -> value k (rows es) = None.
  Proof. rewrite value_trows. destruct (value k (rows es)); [discriminate|reflexivity]. Qed.

  Lemma clone_ok ig h ord : forall es2 es1 nh ordn esn, wf h ord (es1 ++ es2) ->
    (forall e, In e (es1 ++ es2) -> exists d', val_clone mm3 ig (hval e) = Ok d' /\ good d' /\ tree_of d' = copy ig (tree_of (hval e))) ->
    wf nh ordn esn -> (forall v, In v (vals esn) -> good v) -> trows esn = flat_map (copied ig) (trows es1) -> (length esn <= length es1)%nat ->
    exists nh' ordn' esn', clone_from mm3 ig (map (fun e => val_clone mm3 ig (hval e)) (heap h)) (length es2) (length es1) h nh = Ok nh' /\
      wf nh' ordn' esn' /\ (forall v, In v (vals esn') -> good v) /\ trows esn' = flat_map (copied ig) (trows (es1 ++ es2)).
  Proof.
    induction es2 as [|e es2 IH]; intros es1 nh ordn esn W H WN G T L.
    - exists nh, ordn, esn. rewrite app_nil_r. auto.
    - cbn [length clone_from].
      destruct (at_ok _ _ _ _ (length es1) e W) as (id & _ & Hid & ->); [rewrite nth_error_app2, Nat.sub_diag by lia; reflexivity|]. cbn [rbind].
      assert (Next : forall nh' ordn' esn', wf nh' ordn' esn' -> (forall v, In v (vals esn') -> good v) ->
                trows esn' = flat_map (copied ig) (trows (es1 ++ [e])) -> (length esn' <= S (length es1))%nat ->
                exists nh'' ordn'' esn'', clone_from mm3 ig (map (fun e => val_clone mm3 ig (hval e)) (heap h)) (length es2) (S (length es1)) h nh' = Ok nh'' /\
                  wf nh'' ordn'' esn'' /\ (forall v, In v (vals esn'') -> good v) /\ trows esn'' = flat_map (copied ig) (trows (es1 ++ e :: es2))).
      { intros nh' ordn' esn' WN' G' T' L'. specialize (IH (es1 ++ [e]) nh' ordn' esn'). rewrite app_length, Nat.add_1_r, <- app_assoc in IH. apply IH; assumption. }
      assert (TE : flat_map (copied ig) (trows (es1 ++ [e])) = trows esn ++ copied ig (trow e)).
      { unfold trows in *. rewrite map_app, flat_map_app, T. cbn. now rewrite app_nil_r. }
      destruct (negb ig || negb (hmark e)) eqn:M.
      + destruct (H e) as (d' & D & Gd & Td); [apply in_or_app; right; now left|].
        rewrite (rd_some _ _ (Ok d')) by (rewrite nth_error_map, Hid; cbn; now rewrite D). cbn [rbind].
        assert (CH : child_count nh < 2 ^ 31 - 1).
        { pose proof (w_small _ _ _ _ W) as SM. rewrite (count_rows W) in SM. rewrite (count_rows WN). rewrite app_length in SM. cbn [length] in SM. lia. }
        destruct (add_tree _ _ _ (hkey e) d' WN CH) as (b & nh' & ordn' & esn' & -> & WN' & R).
        assert (VN : value (hkey e) (rows esn) = None).
        { apply value_trows_none, value_not_in. rewrite T. intros I. apply copied_keys in I. rewrite keys_trows in I.
          pose proof (wf_nodup _ _ _ _ W) as ND. rewrite map_app in ND. cbn [map] in ND. apply NoDup_remove_2 in ND. apply ND, in_or_app. now left. }
        rewrite VN in R. destruct R as [-> R]. cbn [rbind rassert].
        assert (LR : length esn' = S (length esn)).
        { pose proof (f_equal (@length _) R) as LL. unfold rows in LL. rewrite app_length, !map_length in LL. cbn [length] in LL. lia. }
        eapply Next; [eassumption| | |lia].
        * intros v I. unfold vals in I. rewrite R, map_app in I. apply in_app_or in I as [I|[<-|[]]]; [now apply G|assumption].
        * rewrite TE, trows_rows, R, map_app, <- trows_rows. f_equal. cbn. unfold copied. cbn [trow fst snd].
          rewrite (skip_true _ _ M). now rewrite Td.
      + eapply Next; [eassumption|assumption| |lia]. rewrite TE. unfold copied. cbn [trow fst snd].
        rewrite (skip_false _ _ M). now rewrite app_nil_r.
  Qed.

  Lemma clone_good ig d : good d -> exists d', val_clone mm3 ig d = Ok d' /\ good d' /\ tree_of d' = copy ig (tree_of d).
  Proof.
    induction 1 as [r v|l G IH|h ord es W G IH].
    - exists (DS r v). repeat split. constructor.
    - cbn [val_clone tree_of copy].
      assert (A : exists l', all_ok (map (val_clone mm3 ig) l) = Ok l' /\ (forall x, In x l' -> good x) /\ map tree_of l' = map (copy ig) (map tree_of l)).
      { clear G. induction l as [|x l IHl]; [exists []; repeat split; intros ? []|].
        destruct (IH x) as (x' & E & Gx & Tx); [now left|]. destruct IHl as (l' & El & Gl & Tl); [intros; apply IH; now right|].
        exists (x' :: l'). cbn [map all_ok]. rewrite E. cbn [rbind]. rewrite El. cbn [rbind map]. split; [reflexivity|]. split; [intros y [<-|I]; auto|]. now rewrite Tx, Tl. }
      destruct A as (l' & E & Gl & Tl). rewrite E. cbn [rbind]. exists (DA l'). split; [reflexivity|]. split; [now constructor|]. cbn. now rewrite Tl.
    - cbn [val_clone]. rewrite (count_rows W), Nat2N.id.
      destruct (clone_ok ig h ord es [] hash_new [] []) as (nh & on & en & E & WN & GN & T).
      + exact W.
      + exact IH.
      + apply wf_new.
      + intros v [].
      + reflexivity.
      + apply le_n.
      + cbn [length app] in E, T. rewrite E. cbn [rbind]. exists (DH nh). split; [reflexivity|]. split; [eapply good_hash; eassumption|].
        rewrite (tree_hash _ _ _ W), (tree_hash _ _ _ WN), T. reflexivity.
  Qed.

  (** ** Inheriting *)

  Lemma inherit_ok src so se dest od ed k m : wf src so se -> (forall v, In v (vals se) -> good v) ->
    wf dest od ed -> (forall v, In v (vals ed) -> good v) -> child_count dest < 2 ^ 31 - 1 ->
    exists src' se' dest' od' ed', inherit mm3 src dest k m = Ok (src', dest') /\
      wf src' so se' /\ rows se' = (if m then mark k (rows se) else rows se) /\
      wf dest' od' ed' /\ (forall v, In v (vals ed') -> good v) /\ child_count dest' <= child_count dest + 1 /\
      trows ed' = match value k (trows se) with Some v => inherited k v (trows ed) | None => trows ed end.
  Proof.
    intros WS GS WD GD L. unfold inherit. destruct (get_ok _ _ _ _ k m WS) as (src' & se' & -> & WS' & _ & RS & _). cbn [rbind].
    exists src', se'. rewrite value_trows. destruct (value k (rows se)) as [v|] eqn:V.
    2: { exists dest, od, ed. split; [reflexivity|]. split; [assumption|]. split; [assumption|]. split; [assumption|]. split; [assumption|]. split; [lia|reflexivity]. }
    destruct (get_ok _ _ _ _ k false WD) as (dest' & ed' & -> & WD' & _ & _ & SAME). destruct (SAME eq_refl) as [-> ->]. cbn [rbind option_map].
    unfold inherited. rewrite value_trows. destruct (value k (rows ed)) as [w|] eqn:VD; cbn [option_map].
    { exists dest, od, ed. split; [reflexivity|]. split; [assumption|]. split; [assumption|]. split; [assumption|]. split; [assumption|]. split; [lia|reflexivity]. }
    destruct (clone_good false v) as (c & -> & Gc & Tc); [apply GS; unfold vals; eapply value_in; eassumption|]. cbn [rbind].
    destruct (add_tree _ _ _ k c WD L) as (b & d2 & o2 & e2 & -> & W2 & R). rewrite VD in R. destruct R as [-> R]. cbn [rbind].
    exists d2, o2, e2. split; [reflexivity|]. split; [assumption|]. split; [assumption|]. split; [assumption|]. split; [|split].
    - intros x I. unfold vals in I. rewrite R, map_app in I. apply in_app_or in I as [I|[<-|[]]]; [now apply GD|assumption].
    - rewrite <- (rows_length _ _ _ _ W2), R, <- (rows_length _ _ _ _ WD), app_length. cbn [length]. lia.
    - rewrite trows_rows, R, map_app, <- trows_rows. cbn. now rewrite Tc.
  Qed.

  (** What one entry adds *)
  Definition given_on (ig : bool) (dest : list (bytes * bool * tree)) (e : bytes * bool * tree) : list (bytes * bool * tree) :=
    if ig && snd (fst e) then [] else match value (fst (fst e)) dest with Some _ => [] | None => [(fst (fst e), false, copy false (snd e))] end.

  Lemma given_keys ig d t k : In k (keys (flat_map (given_on ig d) t)) -> In k (keys t).
  Proof.
    induction t as [|e t IH]; [intros []|]. cbn [flat_map]. unfold keys at 1. rewrite map_app. intros I. apply in_app_or in I as [I|I].
    - left. unfold given_on in I. destruct (ig && _); [destruct I|]. destruct (value _ d); [destruct I|]. destruct I as [<-|[]]. reflexivity.
    - right. apply IH. exact I.
  Qed.

  Lemma value_app {A} k (t u : table A) : value k (t ++ u) = match value k t with Some v => Some v | None => value k u end.
  Proof. induction t as [|[[k' m] v] t IH]; [reflexivity|]. cbn. destruct (same k k'); [reflexivity|apply IH]. Qed.

  Lemma c_str_whole k : ~ In 0 k -> c_str k = k.
  Proof. induction k as [|c k IH]; [reflexivity|]. cbn. intros N. destruct (N.eqb_spec c 0) as [->|]; [exfalso; apply N; now left|]. f_equal. apply IH. intros I. apply N. now right. Qed.

  Lemma inherit_from_ok ig src so td : forall se2 se1 dest od ed, wf src so (se1 ++ se2) -> (forall v, In v (vals (se1 ++ se2)) -> good v) ->
    wf dest od ed -> (forall v, In v (vals ed) -> good v) -> child_count dest + N.of_nat (length se2) < 2 ^ 31 ->
    exists dest' od' ed', inherit_from mm3 (length se2) (length se1) ig src dest = Ok dest' /\
      wf dest' od' ed' /\ (forall v, In v (vals ed') -> good v) /\
      ((forall k, In k (map hkey (se1 ++ se2)) -> ~ In 0 k) -> trows ed = td ++ flat_map (given_on ig td) (trows se1) ->
       trows ed' = td ++ flat_map (given_on ig td) (trows (se1 ++ se2))).
  Proof.
    induction se2 as [|e se2 IH]; intros se1 dest od ed W GS WD GD L; cbn [length inherit_from].
    - exists dest, od, ed. rewrite app_nil_r. auto.
    - destruct (at_ok _ _ _ _ (length se1) e W) as (id & _ & Hid & ->); [rewrite nth_error_app2, Nat.sub_diag by lia; reflexivity|]. cbn [rbind].
      assert (Next : forall d1 o1 e1, wf d1 o1 e1 -> (forall v, In v (vals e1) -> good v) -> child_count d1 <= child_count dest + 1 ->
                ((forall k, In k (map hkey (se1 ++ e :: se2)) -> ~ In 0 k) -> trows ed = td ++ flat_map (given_on ig td) (trows se1) ->
                  trows e1 = trows ed ++ given_on ig td (trow e)) ->
                exists dest' od' ed', inherit_from mm3 (length se2) (S (length se1)) ig src d1 = Ok dest' /\
                  wf dest' od' ed' /\ (forall v, In v (vals ed') -> good v) /\
                  ((forall k, In k (map hkey (se1 ++ e :: se2)) -> ~ In 0 k) -> trows ed = td ++ flat_map (given_on ig td) (trows se1) ->
                   trows ed' = td ++ flat_map (given_on ig td) (trows (se1 ++ e :: se2)))).
      { intros d1 o1 e1 W1 G1 L1 T1. specialize (IH (se1 ++ [e]) d1 o1 e1). rewrite app_length, Nat.add_1_r, <- app_assoc in IH.
        destruct IH as (d2 & o2 & e2 & E2 & W2 & G2 & T2); try assumption; [cbn [length] in L; lia|]. exists d2, o2, e2.
        split; [exact E2|]. split; [assumption|]. split; [assumption|]. intros NZ T. apply T2; [exact NZ|].
        rewrite (T1 NZ T), T. unfold trows. rewrite map_app, flat_map_app, <- app_assoc. cbn. now rewrite app_nil_r. }
      destruct (negb ig || negb (hmark e)) eqn:M.
      + destruct (inherit_ok _ _ _ _ _ _ (c_str (hkey e)) false W GS WD GD) as (s' & se' & d1 & o1 & e1 & -> & _ & _ & W1 & G1 & L1 & T1); [cbn [length] in L; lia|].
        cbn [rbind]. eapply Next; try eassumption. intros NZ T.
        rewrite c_str_whole in T1 by (apply NZ; rewrite map_app; apply in_or_app; right; now left).
        rewrite T1. pose proof (wf_nodup _ _ _ _ W) as ND.
        assert (Vs : value (hkey e) (trows (se1 ++ e :: se2)) = Some (tree_of (hval e))).
        { rewrite value_trows. destruct (value_some (se1 ++ e :: se2) (length se1) e ND) as [-> _]; [|reflexivity].
          rewrite nth_error_app2, Nat.sub_diag by lia. reflexivity. }
        rewrite Vs. unfold inherited, given_on. cbn [trow fst snd].
        rewrite (skip_true _ _ M).
        assert (Vd : value (hkey e) (trows ed) = value (hkey e) td).
        { rewrite T, value_app. destruct (value (hkey e) td); [reflexivity|]. apply value_not_in. intros I. apply given_keys in I. rewrite keys_trows in I.
          rewrite map_app in ND. cbn [map] in ND. apply NoDup_remove_2 in ND. apply ND, in_or_app. now left. }
        rewrite Vd. destruct (value (hkey e) td); [now rewrite app_nil_r|reflexivity].
      + eapply Next; try eassumption; [lia|]. intros _ _. unfold given_on. cbn [trow fst snd].
        rewrite (skip_false _ _ M). now rewrite app_nil_r.
  Qed.

  (** ** Handing down *)

  Lemma set_key_split (es1 : list (hentry vdata)) e es2 e' : NoDup (map hkey (es1 ++ e :: es2)) -> hkey e' = hkey e ->
    set_key e' (es1 ++ e :: es2) = es1 ++ e' :: es2.
  Proof.
    intros ND K. rewrite map_app in ND. cbn [map] in ND. apply NoDup_remove_2 in ND. unfold set_key. rewrite map_app. cbn [map].
    assert (U : forall l, ~ In (hkey e) (map hkey l) -> map (fun x => if same (hkey e') (hkey x) then e' else x) l = l).
    { induction l as [|x l IH]; intros N; [reflexivity|]. cbn [map]. destruct (same (hkey e') (hkey x)) as [Q|Q]; [exfalso; apply N; left; congruence|].
      f_equal. apply IH. intros I. apply N. now right. }
    rewrite !U by (intros I; apply ND, in_or_app; auto). destruct (same (hkey e') (hkey e)); [reflexivity|congruence].
  Qed.

  Definition handed (ig : bool) (k : bytes) (v : tree) (e : bytes * bool * tree) : bytes * bool * tree :=
    match snd e with
    | TH es => if ig && snd (fst e) then e else (fst e, TH (inherited k v es))
    | _ => e
    end.

  Lemma bequeath_from_ok ig k v sid so : forall es2 es1 src, wf src so (es1 ++ es2) -> (forall x, In x (vals (es1 ++ es2)) -> good x) ->
    Forall (fun e => room (hval e)) es2 -> (exists e, nth_error (heap src) sid = Some e /\ hkey e = k) ->
    exists src' es2', bequeath_from mm3 (length es2) (length es1) sid k ig src = Ok src' /\
      wf src' so (es1 ++ es2') /\ (forall x, In x (vals (es1 ++ es2')) -> good x) /\
      ((exists e, nth_error (heap src) sid = Some e /\ tree_of (hval e) = v) ->
       (forall e, In e es2 -> hkey e = k -> forall h, hval e = DH h -> ig && hmark e = true) ->
       trows es2' = map (handed ig k v) (trows es2)).
  Proof.
    induction es2 as [|e es2 IH]; intros es1 src W G RM SID; cbn [length bequeath_from].
    - exists src, []. auto.
    - destruct (at_ok _ _ _ _ (length es1) e W) as (id & _ & Hid & ->); [rewrite nth_error_app2, Nat.sub_diag by lia; reflexivity|]. cbn [rbind].
      inversion RM as [|? ? Re RM']; subst.
      assert (Stay : handed ig k v (trow e) = trow e ->
                exists src' es2', bequeath_from mm3 (length es2) (S (length es1)) sid k ig src = Ok src' /\
                  wf src' so (es1 ++ es2') /\ (forall x, In x (vals (es1 ++ es2')) -> good x) /\
                  ((exists e, nth_error (heap src) sid = Some e /\ tree_of (hval e) = v) ->
                   (forall e', In e' (e :: es2) -> hkey e' = k -> forall h, hval e' = DH h -> ig && hmark e' = true) ->
                   trows es2' = map (handed ig k v) (trows (e :: es2)))).
      { intros HD. specialize (IH (es1 ++ [e]) src). rewrite app_length, Nat.add_1_r, <- app_assoc in IH. cbn [app] in IH.
        destruct (IH W G RM' SID) as (s' & es' & E & W' & G' & T). exists s', (e :: es'). rewrite <- app_assoc in W', G'. split; [exact E|].
        split; [exact W'|]. split; [exact G'|]. intros SV NS. cbn [trows map]. rewrite HD. f_equal. apply T; [exact SV|]. intros. eapply NS; eauto. now right. }
      assert (Ge : good (hval e)) by (apply G, in_vals; exists e; split; [apply in_or_app; right; now left|reflexivity]).
      destruct (hval e) as [r s|l|child] eqn:HV; try (apply Stay; unfold handed; cbn [trow snd]; rewrite HV; reflexivity).
      destruct (good_inv _ Ge) as (co & ce & WC & GC).
      destruct (negb ig || negb (hmark e)) eqn:M.
      2: { apply Stay. unfold handed. cbn [trow fst snd]. rewrite HV, (tree_hash _ _ _ WC).
           rewrite (skip_false _ _ M). unfold trow. now rewrite HV, (tree_hash _ _ _ WC). }
      pose proof (skip_true _ _ M) as IGM.
      destruct (get_ok _ _ _ _ k false WC) as (ch' & ce' & -> & _ & _ & _ & SAME). destruct (SAME eq_refl) as [-> ->]. cbn [rbind].
      destruct (value k (rows ce)) as [w|] eqn:VK.
      { apply Stay. unfold handed. cbn [trow fst snd]. unfold trow. rewrite HV, (tree_hash _ _ _ WC), IGM. unfold inherited.
        rewrite value_trows, VK. reflexivity. }
      destruct SID as (se & Hse & Kse). rewrite (rd_some _ _ _ Hse). cbn [rbind].
      destruct (in_es _ _ _ _ _ _ W Hse) as (sp & Psp).
      assert (Gse : good (hval se)) by (apply G, in_vals; exists se; split; [eapply nth_error_In; eassumption|reflexivity]).
      destruct (clone_good false _ Gse) as (c & -> & Gc & Tc). cbn [rbind].
      destruct (add_tree _ _ _ k c WC Re) as (b & ch2 & co2 & ce2 & -> & WC2 & R). rewrite VK in R. destruct R as [-> R]. cbn [rbind].
      set (e' := He (hkey e) (hindex e) (hmark e) (DH ch2)).
      pose proof (upd_wf _ _ _ _ _ e e' W Hid eq_refl eq_refl) as W2.
      rewrite set_key_split in W2; [|apply (wf_nodup _ _ _ _ W)|reflexivity].
      set (src2 := Vh (child_count src) (children src) (ordered src) (upd (heap src) id e')) in *.
      assert (Gc2 : good (DH ch2)).
      { eapply good_hash; [eassumption|]. intros x I. unfold vals in I. rewrite R, map_app in I. apply in_app_or in I as [I|[<-|[]]]; [now apply GC|assumption]. }
      specialize (IH (es1 ++ [e']) src2). rewrite app_length, Nat.add_1_r, <- app_assoc in IH. cbn [app] in IH.
      destruct IH as (s' & es' & E & W' & G' & T); [exact W2| |exact RM'| |].
      + intros x I. apply in_vals in I as (y & I & <-). apply in_app_or in I as [I|[<-|I]]; [apply G, in_vals; exists y; split; [apply in_or_app; now left|reflexivity]|exact Gc2|].
        apply G, in_vals. exists y. split; [apply in_or_app; right; now right|reflexivity].
      + destruct (Nat.eq_dec id sid) as [->|Q].
        * exists e'. cbn [heap src2]. rewrite nth_upd_same by (eapply nth_lt'; eassumption). split; [reflexivity|]. rewrite Hid in Hse. injection Hse as ->. exact Kse.
        * exists se. cbn [heap src2]. rewrite nth_upd_other by assumption. auto.
      + exists s', (e' :: es'). rewrite <- app_assoc in W', G'. split; [exact E|]. split; [exact W'|]. split; [exact G'|]. intros (se1 & Hse1 & Vse) NS.
        rewrite Hse in Hse1. injection Hse1 as <-. cbn [trows map]. f_equal.
        * unfold handed, trow. cbn [fst snd hkey hmark hval e']. rewrite HV, (tree_hash _ _ _ WC), (tree_hash _ _ _ WC2), IGM. f_equal. f_equal.
          unfold inherited. rewrite value_trows, VK. cbn [option_map]. rewrite trows_rows, R, map_app, <- trows_rows. cbn [map fst snd]. now rewrite Tc, Vse.
        * apply T; [|intros; eapply NS; eauto; now right]. exists se. split; [|assumption]. cbn [heap src2]. rewrite nth_upd_other; [assumption|].
          intros ->. rewrite Hid in Hse. injection Hse as ->. rewrite (NS se (or_introl eq_refl) Kse child HV) in IGM. discriminate.
  Qed.

  Lemma mark_vals k (t : table vdata) : map snd (mark k t) = map snd t.
  Proof. unfold mark. rewrite map_map. apply map_ext. intros [[k' m] v]. cbn [fst snd]. destruct (same k k'); reflexivity. Qed.

  Lemma mark_map k (t : table vdata) : map (fun x => (fst x, tree_of (snd x))) (mark k t) = mark k (map (fun x => (fst x, tree_of (snd x))) t).
  Proof. unfold mark. rewrite !map_map. apply map_ext. intros [[k' m] v]. cbn [fst snd]. destruct (same k k'); reflexivity. Qed.

  Lemma mark_trows k (m : bool) se se' : rows se' = (if m then mark k (rows se) else rows se) -> trows se' = if m then mark k (trows se) else trows se.
  Proof. rewrite !trows_rows. intros ->. destruct m; [apply mark_map|reflexivity]. Qed.

  Lemma vals_mark k (m : bool) se se' : rows se' = (if m then mark k (rows se) else rows se) -> vals se' = vals se.
  Proof. unfold vals. intros ->. destruct m; [apply mark_vals|reflexivity]. Qed.

  Lemma bequeath_ok src so se k m ig : wf src so se -> (forall x, In x (vals se) -> good x) -> (forall x, In x (vals se) -> room x) ->
    exists b src' se', bequeath_all mm3 src k m ig = Ok (b, src') /\ wf src' so se' /\ (forall x, In x (vals se') -> good x) /\
      match value k (trows se) with
      | None => b = false /\ src' = src /\ se' = se
      | Some v => b = true /\ ((forall t, v <> TH t) \/ m && ig = true -> trows se' = bequeathed k v ig (if m then mark k (trows se) else trows se))
      end.
  Proof.
    intros W G RM. unfold bequeath_all. destruct (get_ok _ _ _ _ k m W) as (s1 & se1 & EG & W1 & C1 & R1 & _).
    rewrite EG. unfold get_bykey in EG.
    destruct (lookup_ok _ _ _ _ k W) as [(sid & e & LK & E & K)|[LK N]]; rewrite LK in EG |- *; cbn [rbind] in EG |- *.
    2: { exists false, src, se. destruct (value_none _ _ N) as [V _]. rewrite value_trows, V. cbn [option_map]. split; [reflexivity|]. split; [exact W|]. split; [exact G|]. auto. }
    rewrite (rd_some _ _ _ E) in EG. cbn [rbind] in EG.
    destruct (in_es _ _ _ _ _ _ W E) as (p & P). destruct (value_some _ _ _ (wf_nodup _ _ _ _ W) P) as [V _]. rewrite K in V.
    rewrite value_trows, V in *. cbn [option_map].
    assert (S1 : s1 = if m then set_mark sid e src else src) by congruence. clear EG.
    assert (H1 : exists e1, nth_error (heap s1) sid = Some e1 /\ hkey e1 = k /\ hval e1 = hval e /\ hmark e1 = (m || hmark e)).
    { subst s1. destruct m; [|exists e; auto]. exists (He (hkey e) (hindex e) true (hval e)). cbn [set_mark heap].
      rewrite nth_upd_same by (eapply nth_lt'; eassumption). auto. }
    destruct H1 as (e1 & E1 & K1 & V1 & M1). pose proof (vals_mark _ _ _ _ R1) as VM.
    destruct (bequeath_from_ok ig k (tree_of (hval e)) sid so se1 [] s1) as (s2 & se2 & E2 & W2 & G2 & T2).
    - exact W1.
    - cbn [app]. rewrite VM. exact G.
    - apply Forall_forall. intros x I. apply RM. rewrite <- VM. apply in_vals. eauto.
    - eauto.
    - cbn [length app] in *. rewrite (count_rows W1), Nat2N.id, E2. cbn [rbind].
      exists true, s2, se2. split; [reflexivity|]. split; [exact W2|]. split; [exact G2|]. split; [reflexivity|]. intros H.
      rewrite T2.
      + pose proof (mark_trows _ _ _ _ R1) as T1. rewrite <- T1. unfold bequeathed, trows. rewrite !map_map. apply map_ext_in. intros x I.
        unfold handed. cbn [trow fst snd]. destruct (same k (hkey x)) as [Q|Q].
        * assert (x = e1) as ->.
          { apply In_nth_error in I as (q & I). destruct (Forall2_nth' _ _ _ _ _ (w_points _ _ _ _ W1) I) as (j & _ & Xj). unfold points in Xj.
            assert (j = sid) as -> by (eapply key_unique; [exact W1|eassumption..|congruence]). congruence. }
          rewrite V1, M1. destruct H as [H|H].
          -- destruct (tree_of (hval e)) eqn:TV; try reflexivity. exfalso. eapply H. reflexivity.
          -- apply andb_true_iff in H as [-> ->]. cbn [orb andb]. unfold trow. rewrite V1, M1. destruct (tree_of (hval e)); reflexivity.
        * destruct (tree_of (hval x)); reflexivity.
      + exists e1. split; [exact E1|]. now rewrite V1.
      + intros x I Kx h Hx.
        assert (x = e1) as ->.
        { apply In_nth_error in I as (q & I). destruct (Forall2_nth' _ _ _ _ _ (w_points _ _ _ _ W1) I) as (j & _ & Xj). unfold points in Xj.
          assert (j = sid) as -> by (eapply key_unique; [exact W1|eassumption..|congruence]). congruence. }
        destruct H as [H|H]; [|apply andb_true_iff in H as [-> ->]; rewrite M1; reflexivity].
        exfalso. rewrite <- V1, Hx in H. eapply H. cbn [tree_of]. reflexivity.
  Qed.

  (** ** Everything that can be made *)

  Lemma moved_in {A} (l : list A) ps x : In x (moved l ps) -> In x l.
  Proof.
    unfold moved. rewrite in_flat_map. intros (p & _ & I). destruct (nth_error l p) eqn:E; [|destruct I]. destruct I as [<-|[]]. eapply nth_error_In; eauto.
  Qed.

  Lemma made_good d : made mm3 d -> good d.
  Proof.
    induction 1 as [r v|l _ IH| |h o r h' _ IH RM ST _ IHv E|h id e d _ IH E _ IHd|ig d d' _ IH E
      |src dest k m src' dest' _ IHs _ IHd RM E|src dest k m src' dest' _ IHs _ IHd RM E|src dest ig dest' _ IHs _ IHd RM E|src k m ig b src' _ IH RM E].
    - constructor.
    - now constructor.
    - eapply good_hash; [apply wf_new|]. intros v [].
    - destruct (good_inv _ IH) as (ord & es & W & G).
      destruct (step_ok _ _ _ _ o W RM ST) as (h2 & o2 & e2 & E2 & W2 & _ & R). rewrite E2 in E. injection E as _ <-.
      eapply good_hash; [exact W2|]. intros x I. unfold vals in I. rewrite R in I.
      destruct o as [k v|k m| |i|i|k|ig f|srt]; cbn [sstep snd] in I; try (apply G; exact I).
      + destruct (value k (rows es)); cbn [snd] in I; [now apply G|]. rewrite map_app in I. apply in_app_or in I as [I|[<-|[]]]; [now apply G|]. eapply IHv. reflexivity.
      + apply G. destruct m; [|exact I]. rewrite mark_vals in I. exact I.
      + apply G. apply in_map_iff in I as (y & <- & I). apply moved_in in I. unfold vals. now apply in_map.
    - destruct (good_inv _ IH) as (ord & es & W & G). eapply good_hash; [apply (upd_wf _ _ _ _ _ e _ W E); reflexivity|].
      intros x I. apply in_vals in I as (y & I & <-). unfold set_key in I. apply in_map_iff in I as (z & <- & I). destruct (same _ _); [exact IHd|].
      apply G, in_vals. eauto.
    - destruct (clone_good ig _ IH) as (d2 & E2 & G & _). rewrite E2 in E. injection E as <-. exact G.
    - destruct (good_inv _ IHs) as (so & se & WS & GS). destruct (good_inv _ IHd) as (od & ed & WD & GD).
      destruct (inherit_ok _ _ _ _ _ _ k m WS GS WD GD RM) as (s' & se' & d' & od' & ed' & E2 & WS' & RS & _). rewrite E2 in E. injection E as <- <-.
      eapply good_hash; [exact WS'|]. rewrite (vals_mark _ _ _ _ RS). exact GS.
    - destruct (good_inv _ IHs) as (so & se & WS & GS). destruct (good_inv _ IHd) as (od & ed & WD & GD).
      destruct (inherit_ok _ _ _ _ _ _ k m WS GS WD GD RM) as (s' & se' & d' & od' & ed' & E2 & _ & _ & WD' & GD' & _). rewrite E2 in E. injection E as <- <-.
      eapply good_hash; eassumption.
    - destruct (good_inv _ IHs) as (so & se & WS & GS). destruct (good_inv _ IHd) as (od & ed & WD & GD).
      unfold inherit_all in E. rewrite (count_rows WS), Nat2N.id in E. rewrite (count_rows WS) in RM.
      destruct (inherit_from_ok ig src so [] se [] dest od ed) as (d' & od' & ed' & E2 & WD' & GD' & _); [exact WS|exact GS|exact WD|exact GD|lia|].
      cbn [length] in E2. rewrite E2 in E. injection E as <-. eapply good_hash; eassumption.
    - destruct (good_inv _ IH) as (so & se & W & G).
      destruct (bequeath_ok _ _ _ k m ig W G) as (b' & s' & se' & E2 & W' & G' & _).
      + intros x I. apply in_vals in I as (y & I & <-). rewrite Forall_forall in RM. apply RM. eapply Permutation_in; [apply (wf_heap _ _ _ _ W)|exact I].
      + rewrite E2 in E. injection E as _ <-. eapply good_hash; eassumption.
  Qed.

  (** ** In terms of trees *)

  Lemma copy_made ig d : made mm3 d -> exists d', val_clone mm3 ig d = Ok d' /\ tree_of d' = copy ig (tree_of d).
  Proof. intros M. destruct (clone_good ig d (made_good d M)) as (d' & E & _ & T). eauto. Qed.

  Lemma inherit_made src dest k m ts td : made mm3 (DH src) -> made mm3 (DH dest) -> room (DH dest) -> tree_of (DH src) = TH ts -> tree_of (DH dest) = TH td ->
    exists src' dest', inherit mm3 src dest k m = Ok (src', dest') /\ tree_of (DH src') = TH (if m then mark k ts else ts) /\
      tree_of (DH dest') = TH (match value k ts with Some v => inherited k v td | None => td end).
  Proof.
    intros MS MD RM TS TD. destruct (good_inv _ (made_good _ MS)) as (so & se & WS & GS). destruct (good_inv _ (made_good _ MD)) as (od & ed & WD & GD).
    rewrite (tree_hash _ _ _ WS) in TS. injection TS as <-. rewrite (tree_hash _ _ _ WD) in TD. injection TD as <-.
    destruct (inherit_ok _ _ _ _ _ _ k m WS GS WD GD RM) as (s' & se' & d' & od' & ed' & E & WS' & RS & WD' & _ & _ & T).
    exists s', d'. rewrite (tree_hash _ _ _ WS'), (tree_hash _ _ _ WD'), T, (mark_trows _ _ _ _ RS). auto.
  Qed.

  Lemma inherit_all_made src dest ig ts td : made mm3 (DH src) -> made mm3 (DH dest) -> child_count src + child_count dest < 2 ^ 31 ->
    tree_of (DH src) = TH ts -> tree_of (DH dest) = TH td -> (forall k, In k (keys ts) -> ~ In 0 k) ->
    exists dest', inherit_all mm3 src dest ig = Ok dest' /\ tree_of (DH dest') = TH (inherited_all ig ts td).
  Proof.
    intros MS MD RM TS TD NZ. destruct (good_inv _ (made_good _ MS)) as (so & se & WS & GS). destruct (good_inv _ (made_good _ MD)) as (od & ed & WD & GD).
    rewrite (tree_hash _ _ _ WS) in TS. injection TS as <-. rewrite (tree_hash _ _ _ WD) in TD. injection TD as <-.
    unfold inherit_all. rewrite (count_rows WS) in *. rewrite Nat2N.id. rewrite keys_trows in NZ.
    destruct (inherit_from_ok ig src so (trows ed) se [] dest od ed) as (d' & od' & ed' & E2 & WD' & GD' & T); [exact WS|exact GS|exact WD|exact GD|lia|].
    cbn [length app] in *. exists d'. split; [exact E2|]. rewrite (tree_hash _ _ _ WD'). f_equal. rewrite T; [reflexivity|exact NZ|]. cbn. now rewrite app_nil_r.
  Qed.

  Lemma bequeath_made src k m ig ts : made mm3 (DH src) -> Forall (fun e => room (hval e)) (heap src) -> tree_of (DH src) = TH ts ->
    exists b src', bequeath_all mm3 src k m ig = Ok (b, src') /\
      match value k ts with
      | None => b = false /\ src' = src
      | Some v => b = true /\ ((forall t, v <> TH t) \/ m && ig = true -> tree_of (DH src') = TH (bequeathed k v ig (if m then mark k ts else ts)))
      end.
  Proof.
    intros M RM TS. destruct (good_inv _ (made_good _ M)) as (so & se & W & G). rewrite (tree_hash _ _ _ W) in TS. injection TS as <-.
    destruct (bequeath_ok _ _ _ k m ig W G) as (b' & s' & se' & E2 & W' & G' & C).
    - intros x I. apply in_vals in I as (y & I & <-). rewrite Forall_forall in RM. apply RM. eapply Permutation_in; [apply (wf_heap _ _ _ _ W)|exact I].
    - exists b', s'. split; [exact E2|]. destruct (value k (trows se)); [|now destruct C as (-> & -> & _)]. destruct C as [-> T]. split; [reflexivity|].
      intros H. rewrite (tree_hash _ _ _ W'), (T H). reflexivity.
  Qed.
End Tree.
