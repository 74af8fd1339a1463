(** C52 and C53: taking over sockets, and what the control client gets and sends. *)
From Coq Require Import Lia Ascii String.
From Verif Require Import Base DnameSpec DnameProofs ChalSpec CtlModel CtlSpec CtlProofs CtlProofs7 CtlProofs9 CtlProps CscModel CscSpec CscProofs CscProofs2 CscProofs3 CscProofs4 CscProofs5 CscProofs6.
Local Notation length := List.length.

(** ** C52 *)
(** What the client makes of the answer to its request for the sockets, however far the
    answer gets: the sockets the daemon has, all of them and in order, or it
    waits for more, or it gives up as the daemon has refused or hung up. *)
Theorem C52_sockets_arrive fds sv sd h s i before t v d after :
  set_up fds sv -> always fds sv sd sane init h -> run fds sv sd init h = Ok s -> s_log s i = before ++ [Got t REQ_TAKE v d] ++ after ->
  exists r, csc_txn_getfds true (flat_map delivered after) = Ok r /\
    ((exists chunks more, after = map (WroteFds RESP_ACK (N.of_nat (length fds)) 0) chunks ++ more /\ concat chunks = fds /\ r = Done fds) \/
     (exists chunks missing, after = map (WroteFds RESP_ACK (N.of_nat (length fds)) 0) chunks /\ concat chunks ++ missing = fds /\ missing <> [] /\ r = Waiting) \/
     (exists chunks missing, after = map (WroteFds RESP_ACK (N.of_nat (length fds)) 0) chunks ++ [Closed] /\ concat chunks ++ missing = fds /\ missing <> [] /\ r = Fatal) \/
     (exists more, after = Wrote RESP_DENY 0 0 :: more /\ r = Fatal)).
Proof.
  intros Su Sn H L. assert (Hn : (2 <= N.of_nat (length fds) <= 16777215)%N) by apply Su.
  destruct (C50_conversations fds sv sd h s i Su Sn H) as [Q|C]; [rewrite Q in L; destruct before; discriminate|]. rewrite L in C.
  set (o := match s_conns s i with Some _ => true | None => false end) in C. clearbody o.
  destruct (log_at fds sv sd _ o _ before t REQ_TAKE v d after C eq_refl) as (p & [(xs & b & X & ->)|[(xs & rs & X & ->)|(-> & -> & _)]]).
  - destruct (take_shape _ _ _ _ _ _ _ _ X) as [->|(chunks & Ec & F & ->)].
    + eexists. split; [reflexivity|]. right. right. right. exists b. auto.
    + exists (Done fds). rewrite flat_map_app, delivered_fds. split; [now apply getfds_whole|]. left. exists chunks, b. auto.
  - destruct (take_shape _ _ _ _ _ _ _ _ X) as [E|(chunks & Ec & F & E)].
    + destruct xs as [|y xs]; cbn in E.
      * destruct o; (eexists; split; [reflexivity|]); [right; left|right; right; left]; exists [], fds; cbn; (split; [reflexivity|]; split; [reflexivity|]; split; [destruct fds; [cbn in Hn; lia|discriminate]|reflexivity]).
      * injection E as -> E. apply app_eq_nil in E. destruct E as (-> & ->). eexists. split; [reflexivity|]. right. right. right. eexists. split; reflexivity.
    + symmetry in E. apply prefix_map in E. destruct E as (c1 & c2 & -> & -> & _). rewrite concat_app in Ec. apply Forall_app in F. destruct F as (F1 & F2). rewrite flat_map_app, delivered_fds. destruct (concat c2) as [|m ms] eqn:E2.
      * rewrite app_nil_r in Ec. exists (Done fds). split; [now apply getfds_whole|]. left. exists c1. eexists. split; [reflexivity|]. auto.
      * assert (Lc : length (concat c1) < length fds) by (rewrite <- Ec, app_length; cbn; lia). eexists. split; [apply getfds_part; auto; destruct o; auto|]. destruct o; [right; left|right; right; left]; exists c1, (m :: ms); rewrite ?app_nil_r; (split; [reflexivity|]; split; [exact Ec|]; split; [discriminate|reflexivity]).
  - eexists. split; [reflexivity|]. right. right. left. exists [], fds. cbn. split; [reflexivity|]. split; [reflexivity|]. split; [destruct fds; [cbn in Hn; lia|discriminate]|reflexivity].
Qed.

(** The threads of the new daemon: the lock and the control socket are the first two; a
    thread's socket is one for its address and protocol; none is used twice; none is
    lost, except what the kernel cannot name; one that could be used is closed only if every
    thread for its address and protocol has another one. *)
Theorem C52_each_socket_once name_of type_of ts fds :
  (forall t, In t ts -> d_sock t = None) -> NoDup fds -> 2 <= length fds ->
  exists lock sock rest ts' closed, take_over name_of type_of ts fds = Ok (lock, sock, ts', closed) /\ fds = lock :: sock :: rest /\
    map (fun t => (d_udp t, d_addr t)) ts' = map (fun t => (d_udp t, d_addr t)) ts /\
    (forall t f, In t ts' -> d_sock t = Some f -> In f rest /\ usable name_of type_of f (d_udp t) (d_addr t)) /\
    NoDup (flat_map (fun t => match d_sock t with Some f => [f] | None => [] end) ts' ++ closed) /\
    (forall f, In f rest -> (exists t, In t ts' /\ d_sock t = Some f) \/ In f closed \/ name_of f = NotOpen \/ name_of f = NameTooLong true) /\
    (forall f, In f closed -> In f rest /\ forall t, In t ts' -> usable name_of type_of f (d_udp t) (d_addr t) -> d_sock t <> None).
Proof.
  intros Ht Nd L. destruct fds as [|lock [|sock rest]]; cbn in L; try lia. unfold take_over. replace (2 <=? length (lock :: sock :: rest)) with true by reflexivity. cbn [rassert rd nth_error rbind skipn].
  destruct (import_fds name_of type_of ts rest) as (ts', closed) eqn:E. exists lock, sock, rest, ts', closed. split; [reflexivity|]. split; [reflexivity|].
  assert (P := import_placed name_of type_of rest ts [] ts [] ts' closed (placed_start name_of type_of ts Ht)). cbn [app] in P. inversion Nd as [|? ? _ Nd2]; subst. inversion Nd2 as [|? ? _ Nd3]; subst. specialize (P Nd3 E).
  split; [apply (p_key _ _ _ _ _ _ P)|]. split; [apply (p_used _ _ _ _ _ _ P)|]. split; [apply (p_once _ _ _ _ _ _ P)|]. split.
  - intros f I. destruct (p_all _ _ _ _ _ _ P f I) as [Q|Q]; [|now right]. left. unfold socks in Q. apply in_flat_map in Q. destruct Q as (t & It & Q). exists t. split; [exact It|]. destruct (d_sock t) as [f'|]; [destruct Q as [->|[]]; reflexivity|destruct Q].
  - intros f I. split; [apply (p_in _ _ _ _ _ _ P); apply in_or_app; now right|]. intros t It U Q. apply (p_excess _ _ _ _ _ _ P f _ _ t I U It). split; [exact Q|]. split; [reflexivity|]. split; [reflexivity|apply U].
Qed.

(** As many threads for an address and protocol start with a socket as there are sockets for it (or
    threads).  [is_for] and [fits] say which threads and sockets those are. *)
Theorem C52_counts name_of type_of ts fds lock sock ts' closed udp a is_for fits :
  (forall t, In t ts -> d_sock t = None) -> take_over name_of type_of ts fds = Ok (lock, sock, ts', closed) -> inet a ->
  (forall t, is_for t = true <-> d_udp t = udp /\ d_addr t = a) -> (forall f, fits f = true <-> usable name_of type_of f udp a) ->
  count (fun t => is_for t && match d_sock t with Some _ => true | None => false end) ts' = Nat.min (count is_for ts) (count fits (skipn 2 fds)).
Proof.
  intros Ht T Ia Hf Hu. unfold take_over in T. destruct (2 <=? length fds); [|discriminate]. cbn [rassert] in T. destruct (rd fds 0); [|discriminate]. cbn [rbind] in T. destruct (rd fds 1); [|discriminate]. cbn [rbind] in T.
  destruct (import_fds name_of type_of ts (skipn 2 fds)) as (ts2, c2) eqn:E. injection T as _ _ -> ->. destruct (import_count name_of type_of udp a _ _ _ _ E) as (_ & C).
  assert (Ex : forall A (P Q : A -> bool) l, (forall x, In x l -> P x = Q x) -> count P l = count Q l). { intros A P Q l X. unfold count. f_equal. now apply filter_ext_in. }
  assert (Ef : forall t, is_for t = CscProofs3.is_for udp a t).
  { intros t. apply Bool.eq_true_iff_eq. rewrite Hf. unfold CscProofs3.is_for. rewrite Bool.andb_true_iff, anysin_same_iff, Bool.eqb_true_iff. split; [intros (-> & ->); auto|intros (-> & _ & ->); auto]. }
  rewrite (Ex _ is_for (CscProofs3.is_for udp a)) by (intros x _; apply Ef). rewrite (Ex _ _ (fun t => CscProofs3.is_for udp a t && has_sock t) ts') by (intros x _; rewrite Ef; reflexivity).
  rewrite (Ex _ fits (is_usable name_of type_of udp a)) by (intros x _; apply Bool.eq_true_iff_eq; rewrite Hu; symmetry; apply is_usable_iff). rewrite C. f_equal.
  replace (count (fun t => CscProofs3.is_for udp a t && has_sock t) ts) with 0; [reflexivity|]. unfold count. clear - Ht. induction ts as [|t ts IH]; [reflexivity|]. cbn [filter]. unfold has_sock at 1. rewrite (Ht t) by now left. rewrite Bool.andb_false_r. apply IH. intros x Hx. apply Ht. now right.
Qed.

(** With the same addresses and threads, in the same order, every thread continues with the
    old daemon's socket, nothing is closed, and the next replacement will get the same list. *)
Theorem C52_same_configuration name_of type_of ts lock sock rest fresh :
  (forall t, In t ts -> d_sock t = None) -> length rest = length ts ->
  (forall i t f, nth_error ts i = Some t -> nth_error rest i = Some f -> usable name_of type_of f (d_udp t) (d_addr t)) ->
  exists ts', take_over name_of type_of ts (lock :: sock :: rest) = Ok (lock, sock, ts', []) /\
    map d_sock ts' = map Some rest /\ map (fun t => (d_udp t, d_addr t)) ts' = map (fun t => (d_udp t, d_addr t)) ts /\
    handoff_fds lock sock ts' fresh = lock :: sock :: rest.
Proof.
  intros Ht L U. unfold take_over. replace (2 <=? length (lock :: sock :: rest)) with true by reflexivity. cbn [rassert rd nth_error rbind skipn].
  assert (E := import_same name_of type_of ts rest [] (fun t x => match x with end) L Ht U). cbn [app] in E. rewrite E. eexists. split; [reflexivity|].
  assert (Ms : forall (l : list dthread) (r : list N), length r = length l -> map d_sock (map (fun p => give (fst p) (snd p)) (combine l r)) = map Some r /\ map (fun t => (d_udp t, d_addr t)) (map (fun p => give (fst p) (snd p)) (combine l r)) = map (fun t => (d_udp t, d_addr t)) l).
  { induction l as [|x l IH]; destruct r as [|f r]; cbn; intros Q; try discriminate; auto. destruct (IH r) as (-> & ->); [congruence|]. auto. }
  destruct (Ms ts rest L) as (M1 & M2). split; [exact M1|]. split; [exact M2|]. unfold handoff_fds. do 2 f_equal. set (ts' := map _ _) in *. clearbody ts'. clear - M1.
  generalize 0 at 1. revert rest M1. induction ts' as [|x ts' IH]; destruct rest as [|f rest]; cbn; intros M k; try discriminate; auto. injection M as Q M. rewrite Q. f_equal. now apply IH.
Qed.

(** Whatever arrives: the sockets are taken only if every message up to the last one was complete
    and announced the same number, and then they are all of them, in order. *)
Theorem C52_only_whole_lists net :
  Forall (fun m => all_bytes (m_bytes m)) net ->
  exists r, csc_txn_getfds true net = Ok r /\
    forall fds, r = Done fds -> exists msgs rest pieces, net = msgs ++ rest /\ Forall2 (sockets_in (length fds)) msgs pieces /\ concat pieces = fds.
Proof.
  intros Hb. destruct (getfds_sound net Hb None 0 eq_refl) as (r & E & H). exists r. split; [exact E|]. intros fds R. destruct (H fds R) as (msgs & rest & ps & A & B & C & _). exists msgs, rest, ps. auto.
Qed.

(** What is handed on: the lock, the control socket, and then for each thread, in order, the
    socket it listens on, whether taken over or opened anew. *)
Theorem C52_hands_on lock sock ts fresh i t :
  nth_error ts i = Some t ->
  length (handoff_fds lock sock ts fresh) = 2 + length ts /\
  nth_error (handoff_fds lock sock ts fresh) 0 = Some lock /\ nth_error (handoff_fds lock sock ts fresh) 1 = Some sock /\
  forall f, (d_sock t = Some f -> nth_error (handoff_fds lock sock ts fresh) (2 + i) = Some f) /\
            (d_sock t = None -> fresh i = f -> nth_error (handoff_fds lock sock ts fresh) (2 + i) = Some f).
Proof.
  intros Ht. unfold handoff_fds. cbn [length nth_error Nat.add]. rewrite map_length, combine_length, seq_length, Nat.min_id. split; [reflexivity|]. split; [reflexivity|]. split; [reflexivity|].
  assert (E : nth_error (combine (seq 0 (length ts)) ts) i = Some (i, t)).
  { assert (G : forall k, nth_error (combine (seq k (length ts)) ts) i = Some (k + i, t)); [|apply (G 0)]. revert i Ht. induction ts as [|x ts IH]; intros [|i] Ht k; cbn in *; try discriminate.
    - injection Ht as ->. now rewrite Nat.add_0_r.
    - rewrite (IH i Ht). do 2 f_equal. lia. }
  intros f. split; [intros D|intros D F]; rewrite (map_nth_error _ _ _ E); cbn [fst snd]; rewrite D; congruence.
Qed.

(** Versions are compared as numbers. *)
Theorem C52_version a b c x y z : (a < 256 -> b < 256 -> c < 256 -> x < 256 -> y < 256 -> z < 256 -> version_gte a b c x y z = true <-> x * 65536 + y * 256 + z <= a * 65536 + b * 256 + c)%N.
Proof.
  intros. unfold version_gte. rewrite !Bool.orb_true_iff, !Bool.andb_true_iff, !N.ltb_lt, !N.eqb_eq, N.leb_le. lia.
Qed.

(** *** Concrete cases *)
Definition lo (n : N) : anysin := {| a_len := 16; a_family := INET; a_addr := [127; 0; 0; n]%N; a_port := 53 |}.
Definition name0 (f : N) : sockname := if (f =? 40)%N then NotOpen else if (f <? 30)%N then Named (lo 1) else Named (lo 2).
Definition type0 (f : N) : socktype := if N.even f then Dgram else Stream.
Definition thr (udp : bool) (n : N) : dthread := {| d_sock := None; d_udp := udp; d_addr := lo n |}.
Example C52_witness :
  (exists s, run (repeat 5%N 300) 0 0 init h_talk = Ok s /\ set_up (repeat 5%N 300) 0 /\ always (repeat 5%N 300) 0 0 sane init h_talk /\
     exists before after, s_log s 0 = before ++ [Got 17 REQ_TAKE 0 9] ++ after /\ csc_txn_getfds true (flat_map delivered after) = Ok (Done (repeat 5%N 300))) /\
  (* two sockets too many for one address, one too few for the other, one that is not open *)
  take_over name0 type0 [thr true 1; thr false 1; thr true 2; thr true 2] [10; 11; 20; 22; 24; 21; 40; 32; 33]%N =
    Ok (10%N, 11%N, [give (thr true 1) 20; give (thr false 1) 21; give (thr true 2) 32; thr true 2], [22; 24; 33]%N) /\
  handoff_fds 10 11 [give (thr true 1) 20; give (thr false 1) 21; give (thr true 2) 32; thr true 2] (fun i => 50 + N.of_nat i)%N = [10; 11; 20; 21; 32; 53]%N /\
  NoDup [10; 11; 20; 22; 24; 21; 40; 32; 33]%N /\ inet (lo 1) /\
  (forall i t f, nth_error [thr true 1; thr false 1; thr true 2] i = Some t -> nth_error [20; 21; 32]%N i = Some f -> usable name0 type0 f (d_udp t) (d_addr t)).
Proof.
  split.
  - eexists. split; [vm_compute; reflexivity|]. split; [split; [vm_compute; split; discriminate|vm_compute; discriminate]|]. split; [history|].
    exists [Opened None; Got 3 REQ_STAT 0 0; Made [123; 125]%N; Wrote RESP_ACK 0 2; WroteData [123]%N; WroteData [125]%N; Got 15 REQ_TAK1 0 9; Wrote RESP_ACK 0 0], [WroteFds RESP_ACK 300 0 (repeat 5%N 253); WroteFds RESP_ACK 300 0 (repeat 5%N 47); Got 20 REQ_STOP 0 0; Wrote RESP_ACK 0 0].
    split; [vm_compute; reflexivity|vm_compute; reflexivity].
  - split; [vm_compute; reflexivity|]. split; [vm_compute; reflexivity|]. split; [repeat constructor; cbn; intuition discriminate|]. split; [now left|].
    intros [|[|[|i]]] t f; cbn; intros [= <-] [= <-] || (destruct i; discriminate); (split; [reflexivity|]; split; [now left|reflexivity]).
Qed.

(** ** C53 *)
(** What a client gets that asked for statistics or states (or, in a takeover, for the
    challenges): [net] is all that arrives of what the daemon wrote from then on.  Success
    means the whole of the daemon's text and nothing else; an answer that is cut off is never
    taken for a whole one. *)
Theorem C53_text fds sv sd h s i before t key v d after net :
  set_up fds sv -> always fds sv sd sane init h -> run fds sv sd init h = Ok s ->
  key = REQ_STAT \/ key = REQ_STATE \/ key = REQ_TAK2 -> s_log s i = before ++ [Got t key v d] ++ after ->
  (forall n d, In (Wrote RESP_ACK n d) after -> (n <= 16777215)%N) -> arrives net (flat_map stream after) ->
  exists r answer data net', csc_txn_getdata true net = Ok (r, answer, data, net') /\
    ((exists text n chunks more, after = [Made text; Wrote RESP_ACK n (N.of_nat (length text))] ++ map WroteData chunks ++ more /\ concat chunks = text /\
        r = TxOk /\ data = match text with [] => None | _ => Some text end) \/
     (key = REQ_TAK2 /\ exists n more, after = Wrote RESP_ACK n 0 :: more /\ r = TxOk /\ data = None) \/
     (exists text n chunks missing tail, after = [Made text; Wrote RESP_ACK n (N.of_nat (length text))] ++ map WroteData chunks ++ tail /\ (tail = [] \/ tail = [Closed]) /\
        concat chunks ++ missing = text /\ missing <> [] /\ r = TxHard /\ data = None) \/
     (flat_map stream after = [] /\ r = TxSoft /\ data = None) \/
     (exists more, after = Wrote RESP_DENY 0 0 :: more /\ r = TxHard /\ data = None)).
Proof.
  intros Su Sn H Hk L Hn A.
  destruct (C50_conversations fds sv sd h s i Su Sn H) as [Q|C]; [rewrite Q in L; destruct before; discriminate|]. rewrite L in C.
  set (o := match s_conns s i with Some _ => true | None => false end) in C. clearbody o.
  assert (Deny : forall more, after = Wrote RESP_DENY 0 0 :: more -> exists answer net', csc_txn_getdata true net = Ok (TxHard, answer, None, net')).
  { intros more ->. cbn [flat_map stream] in A. destruct (txn_arrives net RESP_DENY 0 0 _ ltac:(lia) ltac:(lia) A) as (pieces & E & _). unfold csc_txn_getdata. rewrite E. cbn. eauto. }
  assert (None' : flat_map stream after = [] -> csc_txn_getdata true net = Ok (TxSoft, (0, 0, 0)%N, None, [])).
  { intros E. rewrite E in A. unfold csc_txn_getdata. now rewrite (txn_nothing net A). }
  assert (Text : forall text n chunks more, after = [Made text; Wrote RESP_ACK n (N.of_nat (length text))] ++ map WroteData chunks ++ more -> (N.of_nat (length text) < 4294967296)%N -> concat chunks = text ->
    exists answer net', csc_txn_getdata true net = Ok (TxOk, answer, match text with [] => None | _ => Some text end, net')).
  { intros text n chunks more E Lt Ec. assert (Hn' : (n <= 16777215)%N) by (apply (Hn n (N.of_nat (length text))); rewrite E; right; now left).
    assert (S : flat_map stream after = message RESP_ACK n (N.of_nat (length text)) ++ (text ++ flat_map stream more)). { rewrite E. rewrite !flat_map_app, stream_data, Ec. reflexivity. }
    rewrite S in A. destruct (getdata_ack net n _ _ Hn' Lt A) as (net' & X). rewrite X. destruct text as [|x0 text]; [cbn; eauto|]. remember (x0 :: text) as T.
    replace (N.of_nat (length T) =? 0)%N with false by (symmetry; apply N.eqb_neq; subst T; cbn [List.length]; lia). rewrite Nat2N.id, app_length. replace (length T <=? _) with true by (symmetry; apply Nat.leb_le; lia). rewrite firstn_app, Nat.sub_diag, firstn_all, firstn_O, app_nil_r. subst T. eauto. }
  assert (Tak : forall n more, after = Wrote RESP_ACK n 0 :: more -> exists answer net', csc_txn_getdata true net = Ok (TxOk, answer, None, net')).
  { intros n more E. assert (Hn' : (n <= 16777215)%N) by (apply (Hn n 0%N); rewrite E; now left). rewrite E in A. cbn [flat_map stream] in A. destruct (getdata_ack net n 0 _ Hn' ltac:(lia) A) as (net' & X). rewrite X. cbn. eauto. }
  destruct (log_at fds sv sd _ o _ before t key v d after C eq_refl) as (p & [(xs & b & X & E)|[(xs & rs & X & E)|(_ & -> & _)]]).
  - destruct (text_shape _ _ _ _ _ _ _ _ _ Hk X) as [->|[(-> & n & ->)|(text & n & chunks & Lt & Ec & ->)]].
    + destruct (Deny b E) as (an & net' & Y). do 4 eexists. split; [exact Y|]. do 4 right. eexists. split; [exact E|]. auto.
    + destruct (Tak n b E) as (an & net' & Y). do 4 eexists. split; [exact Y|]. right. left. split; [reflexivity|]. do 2 eexists. split; [exact E|]. auto.
    + rewrite <- app_assoc in E. destruct (Text text n chunks b E Lt Ec) as (an & net' & Y). do 4 eexists. split; [exact Y|]. left. exists text, n, chunks, b. auto.
  - assert (Nothing : xs = [] \/ (exists text, xs = [Made text]) -> exists r answer data net', csc_txn_getdata true net = Ok (r, answer, data, net') /\ (flat_map stream after = [] /\ r = TxSoft /\ data = None)).
    { intros Q. assert (S : flat_map stream after = []) by (rewrite E; destruct Q as [->|(text & ->)]; destruct o; reflexivity). do 4 eexists. split; [exact (None' S)|]. auto. }
    destruct (text_shape _ _ _ _ _ _ _ _ _ Hk X) as [Ex|[(-> & n & Ex)|(text & n & chunks & Lt & Ec & Ex)]].
    + destruct xs as [|y xs]; [destruct (Nothing (or_introl eq_refl)) as (r & an & da & net' & Y & Z); exists r, an, da, net'; auto 10|]. cbn in Ex. injection Ex as -> Ex. apply app_eq_nil in Ex. destruct Ex as (-> & ->). destruct (Deny _ E) as (an & net' & Y). do 4 eexists. split; [exact Y|]. do 4 right. eexists. split; [exact E|]. auto.
    + destruct xs as [|y xs]; [destruct (Nothing (or_introl eq_refl)) as (r & an & da & net' & Y & Z); exists r, an, da, net'; auto 10|]. cbn in Ex. injection Ex as -> Ex. apply app_eq_nil in Ex. destruct Ex as (-> & ->). destruct (Tak _ _ E) as (an & net' & Y). do 4 eexists. split; [exact Y|]. right. left. split; [reflexivity|]. do 2 eexists. split; [exact E|]. auto.
    + destruct xs as [|y1 xs]; [destruct (Nothing (or_introl eq_refl)) as (r & an & da & net' & Y & Z); exists r, an, da, net'; auto 10|]. cbn in Ex. injection Ex as -> Ex.
      destruct xs as [|y2 xs]; [destruct (Nothing (or_intror (ex_intro _ _ eq_refl))) as (r & an & da & net' & Y & Z); exists r, an, da, net'; auto 10|]. cbn in Ex. injection Ex as -> Ex. symmetry in Ex. apply prefix_map in Ex. destruct Ex as (c1 & c2 & -> & -> & _). rewrite concat_app in Ec. destruct (concat c2) as [|m ms] eqn:E2.
      * rewrite app_nil_r in Ec. destruct (Text text n c1 (if o then [] else [Closed]) E Lt Ec) as (an & net' & Y). do 4 eexists. split; [exact Y|]. left. exists text, n, c1. eexists. split; [exact E|]. auto.
      * assert (Hn' : (n <= 16777215)%N) by (apply (Hn n (N.of_nat (length text))); rewrite E; right; now left).
        assert (S : flat_map stream after = message RESP_ACK n (N.of_nat (length text)) ++ concat c1). { rewrite E. cbn [app flat_map stream]. rewrite flat_map_app, stream_data. destruct o; now rewrite ?app_nil_r. }
        rewrite S in A. destruct (getdata_ack net n _ _ Hn' Lt A) as (net' & Y). rewrite Nat2N.id in Y. assert (Lc : length (concat c1) < length text) by (rewrite <- Ec, app_length; cbn; lia).
        replace (N.of_nat (length text) =? 0)%N with false in Y by (symmetry; apply N.eqb_neq; lia). replace (length text <=? length (concat c1)) with false in Y by (symmetry; apply Nat.leb_gt; lia).
        do 4 eexists. split; [exact Y|]. right. right. left. exists text, n, c1, (m :: ms), (if o then [] else [Closed]). split; [exact E|]. split; [destruct o; auto|]. split; [exact Ec|]. split; [discriminate|auto].
  - do 4 eexists. split; [apply None'; reflexivity|]. do 3 right. left. auto.
Qed.
(** Sending data: what is sent is a beginning of it, in order; the request succeeds only
    if all of it has been sent and the daemon says so. *)
Theorem C53_sent sends d data net : d <> 0%N -> N.to_nat d <= length data ->
  exists r out, csc_txn_senddata true sends d data net = Ok (r, out) /\
    (exists k, k <= N.to_nat d /\ out = firstn k data) /\
    (forall a, r = Some (TxOk, a) -> out = firstn (N.to_nat d) data /\ exists b rest, recv net 8 = (Some (RESP_ACK :: b), rest)).
Proof.
  intros Hd L. unfold csc_txn_senddata. replace (d =? 0)%N with false by (symmetry; now apply N.eqb_neq). cbn [negb rassert].
  destruct (send_loop_spec data (N.to_nat d) L sends 0 [] ltac:(lia) eq_refl) as (r & out & E & (k & K & Ek) & T). rewrite E. cbn [rbind]. destruct r as [[|]|].
  - do 2 eexists. split; [reflexivity|]. split; [exists k; split; [lia|exact Ek]|]. intros a [= Ea]. split; [now apply T|]. unfold csc_txn in Ea. cbn [negb] in Ea. destruct (recv net 8) as ([[|c0 [|c1 [|c2 [|c3 [|c4 [|c5 [|c6 [|c7 [|]]]]]]]]]|] & net'); cbn in Ea; try discriminate Ea.
    destruct (c0 =? RESP_ACK)%N eqn:Q; [|destruct (c0 =? RESP_LATR)%N; discriminate Ea]. apply N.eqb_eq in Q. subst c0. eauto.
  - do 2 eexists. split; [reflexivity|]. split; [exists k; split; [lia|exact Ek]|]. discriminate.
  - do 2 eexists. split; [reflexivity|]. split; [exists k; split; [lia|exact Ek]|]. discriminate.
Qed.

(** gdnsdctl's challenges: from any arguments the command makes a request the daemon accepts
    that says just what was given, or refuses; and it refuses only if it must. *)
Theorem C53_challenges buf args : (forall a, In a args -> all_bytes (fst a)) -> length buf = N.to_nat 28400 ->
  exists r, action_chal buf args = Ok r /\
    match r with
    | Some (h, d, data) => exists cs, given args cs /\ legal_request (length args) (firstn (N.to_nat d) data) cs /\
        h = message REQ_CHAL (N.of_nat (length args)) d /\ chal_sizes (N.of_nat (length args)) d /\ N.to_nat d <= length data
    | None => args = [] \/ 100 < length args \/ forall cs, ~ given args cs
    end.
Proof.
  intros Hb Lb. unfold action_chal. destruct ((length args =? 0) || (100 <? length args)) eqn:Q.
  - exists None. split; [reflexivity|]. apply Bool.orb_true_iff in Q. destruct Q as [Q|Q]; [left; apply Nat.eqb_eq in Q; now destruct args|right; left; now apply Nat.ltb_lt].
  - apply Bool.orb_false_iff in Q. destruct Q as (Q1 & Q2). apply Nat.eqb_neq in Q1. apply Nat.ltb_ge in Q2.
    destruct (chal_loop_ok args [] buf Hb Lb) as (r & E & S); [lia|]. cbn [app List.length] in E, S. rewrite E. cbn [rbind]. destruct r as [(buf', dlen)|].
    + destruct S as (cs & data & junk & G & R & -> & -> & L' & Ld & Ne). rewrite raw8_message by lia. cbn [rbind]. eexists. split; [reflexivity|]. exists cs. split; [exact G|].
      assert (Na : args <> []) by (intros ->; cbn in Q1; lia). specialize (Ne Na). assert (0 < length data) by (destruct data; [contradiction|cbn; lia]). assert (length data <= N.to_nat 28400) by (rewrite <- L', app_length; lia).
      rewrite Nat2N.id, firstn_app, Nat.sub_diag, firstn_all, firstn_O, app_nil_r. split; [|split; [reflexivity|split; [split; lia|rewrite app_length; lia]]].
      split; [exact R|]. split; [now apply given_length|]. split; [lia|assumption].
    + exists None. split; [reflexivity|]. right. right. exact S.
Qed.
(** Such a request reaches the part of the daemon that keeps the challenges, unchanged, in
    whatever pieces it arrives, and the daemon answers it. *)
Theorem C53_challenges_reach_daemon fds sv sd s i c x buf args h d data pieces :
  (forall a, In a args -> all_bytes (fst a)) -> length buf = N.to_nat 28400 -> action_chal buf args = Ok (Some (h, d, data)) ->
  s_stop s = false -> s_join s = false -> s_pid s = 0%N -> s_conns s i = Some c -> k_state c = READING_REQ -> k_read c = true -> permitted (k_perms c) REQ_CHAL -> x_chal_fails x = false ->
  concat pieces = firstn (N.to_nat d) data -> Forall (fun p => p <> []) pieces ->
  exists s' c', run fds sv sd s (ERead i (Recv h) x :: map (fun p => ERead i (Recv p) x) pieces) = Ok s' /\
    s_effects s' = s_effects s ++ [By i (DidChallenges (N.of_nat (length args)) (firstn (N.to_nat d) data))] /\
    s_conns s' i = Some c' /\ k_state c' = WRITING_RESP /\ k_write c' = true /\ k_wkey c' = RESP_ACK.
Proof.
  intros Hb Lb Ea St Jn Pd Ec Ks Kr Pm Hx Ep Fp. destruct (C53_challenges buf args Hb Lb) as (r & E & S). rewrite E in Ea. injection Ea as ->. destruct S as (cs & G & Lr & -> & (Hv & Hd) & Ld).
  cbn [run]. unfold step at 1. rewrite St. unfold step_at. cbn [is_main]. rewrite Jn. cbn [main_step]. rewrite Ec, Kr. unfold conn_read. rewrite (get_some _ _ _ Ec). cbn [rbind]. rewrite Ks. unfold message. rewrite make_v_div, make_d_div by lia.
  assert (Al : match k_perms c with Some p => negb (tcp_req_allowed p REQ_CHAL) | None => false end = false).
  { destruct (k_perms c) as [(a & b)|]; [|reflexivity]. cbn in Pm. destruct Pm as [P|[P|[P|[(P & _)|(_ & [P|P])]]]]; try discriminate P. now subst a. }
  cbn zeta. cbn [set_rbuf k_perms]. rewrite Al. change (REQ_CHAL =? REQ_CHAL)%N with true. cbn iota.
  replace ((N.of_nat (length args) =? 0) || (CHAL_MAX_COUNT <? N.of_nat (length args)) || (d =? 0) || (CHAL_MAX_DLEN <? d))%N with false.
  2:{ symmetry. unfold CHAL_MAX_COUNT, CHAL_MAX_DLEN. rewrite !Bool.orb_false_iff, !N.eqb_neq, !N.ltb_ge. lia. }
  cbn [rbind]. assert (Lp : length (concat pieces) = N.to_nat d) by (rewrite Ep, firstn_length; lia).
  match goal with |- context [run fds sv sd ?S1 (map _ pieces)] => destruct (read_pieces fds sv sd x i Hx pieces S1 (set_state (set_data (set_rbuf c REQ_CHAL (N.of_nat (length args)) d) (Some []) (N.to_nat d) 0) READING_DATA (k_read c) (k_write c)) []) as (s' & c' & E' & Ef & R) end.
  all: cbn; try assumption; try apply set_same; try reflexivity; try lia.
  exists s', c'. split; [exact E'|]. split; [rewrite Ef; cbn [k_v set_state set_data set_rbuf app]; now rewrite Ep|exact R].
Qed.

(** *** Concrete cases *)
Definition chal0 : bytes := repeat 65%N 42 ++ [95%N].
Definition args0 : list (bytes * bytes) := [(codes "_acme-challenge.example.com", chal0); (codes "www.Example.org.", chal0)].
Definition get0 (r : res (option (bytes * N * bytes))) : bytes * N * bytes := match r with Ok (Some x) => x | _ => ([], 0%N, []) end.
Definition req0 := get0 (action_chal (repeat 7%N (N.to_nat 28400)) args0).
Example C53_witness :
  (* statistics that arrive in two pieces *)
  (exists s, run (repeat 5%N 300) 0 0 init h_talk = Ok s /\ exists before after, s_log s 0 = before ++ [Got 3 REQ_STAT 0 0] ++ after /\
     let net := [Piece (message RESP_ACK 0 2 ++ [123%N]); Piece (skipn 9 (flat_map stream after))] in
     arrives net (flat_map stream after) /\ csc_txn_getdata true net = Ok (TxOk, (RESP_ACK, 0, 2)%N, Some [123; 125]%N, [Piece (message RESP_ACK 0 0 ++ message RESP_ACK 0 0)])) /\
  (* a challenge request, and the daemon's side of it *)
  (forall a, In a args0 -> all_bytes (fst a)) /\
  fst req0 = (message REQ_CHAL 2 120, 120%N) /\
  (exists s c, go [EAccept None] = Ok s /\ s_stop s = false /\ s_join s = false /\ s_pid s = 0%N /\ s_conns s 0 = Some c /\ k_state c = READING_REQ /\ k_read c = true /\ permitted (k_perms c) REQ_CHAL).
Proof.
  split; [|split; [|split]].
  - eexists. split; [vm_compute; reflexivity|].
    eexists [Opened None], _. split; [vm_compute; reflexivity|]. cbn zeta. split.
    + eexists [_; _]. split; [reflexivity|]. split; [vm_compute; reflexivity|]. split; [|vm_compute; lia]. repeat constructor; vm_compute; discriminate.
    + vm_compute. reflexivity.
  - intros a [<-|[<-|[]]]; unfold all_bytes; vm_compute; repeat constructor.
  - vm_compute. reflexivity.
  - do 2 eexists. split; [vm_compute; reflexivity|]. split; [reflexivity|]. split; [reflexivity|]. split; [reflexivity|]. split; [reflexivity|]. split; [reflexivity|]. split; [reflexivity|]. exact I.
Qed.
Print Assumptions C52_sockets_arrive.
Print Assumptions C52_each_socket_once.
Print Assumptions C52_counts.
Print Assumptions C52_same_configuration.
Print Assumptions C52_only_whole_lists.
Print Assumptions C52_hands_on.
Print Assumptions C52_version.
Print Assumptions C53_text.
Print Assumptions C53_sent.
Print Assumptions C53_challenges.
Print Assumptions C53_challenges_reach_daemon.
