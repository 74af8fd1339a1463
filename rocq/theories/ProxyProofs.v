(** PROXY headers. *)
From Verif Require Import Base ProxyModel ProxySpec LocProofs.

Lemma byte_eqb_eq a b : byte_eqb a b = true <-> a = b.
Proof. unfold byte_eqb. destruct (list_eq_dec N.eq_dec a b); split; congruence. Qed.
Lemma cmp_at_ok b i c : i + length c <= length b -> cmp_at b i c = Ok (byte_eqb (sub b i (length c)) c).
Proof. intros L. unfold cmp_at. now rewrite rdn_ok. Qed.

Lemma memchr_ok c n : forall l pre post, length l = n -> memchr (pre ++ l ++ post) (length pre) c n = Ok None /\ ~ In c l \/ exists a t, l = a ++ c :: t /\ ~ In c a /\ memchr (pre ++ l ++ post) (length pre) c n = Ok (Some (length pre + length a)).
Proof.
  induction n as [|n IH]; intros l pre post L.
  - left. destruct l; [|discriminate]. cbn. auto.
  - destruct l as [|x l]; [discriminate|]. cbn [memchr]. cbn [app]. rewrite rd_mid. cbn [rbind]. destruct (N.eqb_spec x c) as [->|NE].
    + right. exists [], l. cbn. rewrite Nat.add_0_r. auto.
    + injection L as L. destruct (IH l (pre ++ [x]) post L) as [[E NI]|(a & t & -> & NI & E)]; rewrite <- app_assoc, app_length in E; cbn [app length] in E; rewrite Nat.add_1_r in E.
      * left. split; [exact E|]. intros [X|X]; auto.
      * right. exists (x :: a), t. cbn [app length]. split; [reflexivity|]. split; [intros [X|X]; auto|]. cbn [app] in E. rewrite E. do 2 f_equal. lia.
Qed.

(** the text up to the next space *)
Fixpoint cut (l : bytes) : option (bytes * bytes) :=
  match l with
  | [] => None
  | x :: l => if (x =? 32)%N then Some ([], l) else if (x =? 0)%N then None else match cut l with Some (a, r) => Some (x :: a, r) | None => None end
  end.
Lemma cut_some l : forall a r, cut l = Some (a, r) -> l = a ++ 32%N :: r /\ ~ In 0%N a /\ ~ In 32%N a.
Proof.
  induction l as [|x l IH]; intros a r E; cbn [cut] in E; [discriminate|]. destruct (N.eqb_spec x 32) as [->|N1]; [injection E as <- <-; cbn; auto|]. destruct (N.eqb_spec x 0) as [->|N2]; [discriminate|].
  destruct (cut l) as [[a' r']|]; [|discriminate]. injection E as <- <-. destruct (IH _ _ eq_refl) as (-> & A & B). split; [reflexivity|]. split; intros [X|X]; auto.
Qed.
Lemma cut_app a r : ~ In 0%N a -> ~ In 32%N a -> cut (a ++ 32%N :: r) = Some (a, r).
Proof.
  induction a as [|x a IH]; intros A B; [reflexivity|]. cbn [app cut]. destruct (N.eqb_spec x 32) as [->|N1]; [destruct B; now left|]. destruct (N.eqb_spec x 0) as [->|N2]; [destruct A; now left|].
  rewrite IH; [reflexivity| |]; intros X; [apply A|apply B]; now right.
Qed.
Lemma strchr_ok l : forall fuel pre post, length l < fuel -> strchr fuel (pre ++ l ++ 0%N :: post) (length pre) 32 = Ok (match cut l with Some (a, _) => Some (length pre + length a) | None => None end).
Proof.
  induction l as [|x l IH]; intros fuel pre post L; (destruct fuel as [|fuel]; [cbn in L; lia|]); cbn [strchr cut app]; rewrite rd_mid; cbn [rbind]; [reflexivity|].
  destruct (x =? 32)%N; [cbn; now rewrite Nat.add_0_r|]. destruct (x =? 0)%N; [reflexivity|].
  specialize (IH fuel (pre ++ [x]) post). rewrite <- app_assoc, app_length in IH. cbn [app length] in IH. rewrite Nat.add_1_r in IH. rewrite IH by (cbn in L; lia). destruct (cut l) as [[a r]|]; [|reflexivity]. cbn [length]. do 2 f_equal. lia.
Qed.
Lemma str_at_ok l : forall fuel pre post, length l < fuel -> ~ In 0%N l -> str_at fuel (pre ++ l ++ 0%N :: post) (length pre) = Ok l.
Proof.
  induction l as [|x l IH]; intros fuel pre post L NI; (destruct fuel as [|fuel]; [cbn in L; lia|]); cbn [str_at app]; rewrite rd_mid; cbn [rbind]; [reflexivity|].
  destruct (N.eqb_spec x 0) as [->|_]; [destruct NI; now left|].
  specialize (IH fuel (pre ++ [x]) post). rewrite <- app_assoc, app_length in IH. cbn [app length] in IH. rewrite Nat.add_1_r in IH. rewrite IH; [reflexivity|cbn in L; lia|]. intros X. apply NI. now right.
Qed.
(** the same at an index that only equals the length *)
Lemma strchr_at l fuel pre post i : i = length pre -> length l < fuel -> strchr fuel (pre ++ l ++ 0%N :: post) i 32 = Ok (match cut l with Some (a, _) => Some (i + length a) | None => None end).
Proof. intros ->. apply strchr_ok. Qed.
Lemma wr_at {A} (a : list A) x b y i : i = length a -> wr (a ++ x :: b) i [y] = Ok (a ++ y :: b).
Proof. intros ->. apply wr_one. Qed.
Lemma str_at_at l fuel pre post i : i = length pre -> length l < fuel -> ~ In 0%N l -> str_at fuel (pre ++ l ++ 0%N :: post) i = Ok l.
Proof. intros ->. apply str_at_ok. Qed.

Section Proxy.
  Variable getaddrinfo : bytes -> bytes -> option peer.

  (** the fields of the text after "PROXY TCPx " *)
  Definition fields (l : bytes) : option (bytes * bytes * bytes * bytes) :=
    match cut l with
    | None => None
    | Some (src, l) => match cut l with
                       | None => None
                       | Some (dst, l) => match cut l with None => None | Some (sport, rest) => Some (src, dst, sport, rest) end
                       end
    end.
  (** what the text form yields, for a line with its ending in place *)
  Lemma v1_line p5 l tail sa : length p5 = 5 -> ~ In 13%N (PROXY_ ++ p5 ++ l) -> 5 <= length l ->
    let line := PROXY_ ++ p5 ++ l in let b := line ++ 13%N :: 10%N :: tail in
    exists b', length b' = length b /\ skipn (length line + 2) b' = tail /\
    parse_v1 getaddrinfo b sa =
      match (if byte_eqb p5 TCP4_ || byte_eqb p5 TCP6_ then match fields l with Some (src, _, sport, _) => getaddrinfo src sport | None => None end else None) with
      | Some sa' => rassert (length line + 2 <=? 108) (Ok (length line + 2, sa', b'))
      | None => Ok (0, sa, b')
      end.
  Proof.
    intros L5 NI LL line b. unfold parse_v1. set (dlen := length b).
    assert (LP : length line = 11 + length l) by (unfold line; rewrite !app_length; cbn; lia).
    assert (LB : dlen = length line + 2 + length tail) by (unfold dlen, b; rewrite app_length; cbn; lia).
    unfold rassert at 1. replace (8 <=? dlen) with true by (symmetry; apply Nat.leb_le; lia).
    rewrite cmp_at_ok by (cbn [length PROXY_]; fold dlen; lia).
    replace (sub b 0 (length PROXY_)) with PROXY_ by (unfold b, line; rewrite <- !app_assoc; reflexivity).
    cbn [rbind]. replace (byte_eqb PROXY_ PROXY_) with true by (symmetry; now apply byte_eqb_eq). unfold rassert at 1.
    (* the first CR *)
    replace (memchr b 0 13 (dlen - 1)) with (@Ok (option nat) (Some (length line))).
    2:{ symmetry. destruct (memchr_ok 13 (dlen - 1) (firstn (dlen - 1) b) [] (skipn (dlen - 1) b)) as [[_ N]|(a & t & EA & NA & E)].
        - apply firstn_length_le. lia.
        - exfalso. apply N. unfold b. rewrite firstn_app. apply in_or_app. right. replace (dlen - 1 - length line) with (S (length tail)) by lia. now left.
        - cbn [app length Nat.add] in E. rewrite firstn_skipn in E. rewrite E. do 2 f_equal.
          assert (EB : b = a ++ 13%N :: t ++ skipn (dlen - 1) b) by (rewrite <- (firstn_skipn (dlen - 1) b) at 1; rewrite EA, <- app_assoc; reflexivity).
          unfold b in EB at 1. clear - EB NA NI. fold line in NI. revert a NA EB. generalize (t ++ skipn (dlen - 1) b) as t'. revert NI. generalize (10%N :: tail) as t2. induction line as [|x ln IH]; intros t2 NI t' a NA EB.
          + destruct a as [|y a]; [reflexivity|]. injection EB as <- _. destruct NA. now left.
          + destruct a as [|y a]; [injection EB as -> _; destruct NI; now left|]. cbn [length]. f_equal. injection EB as -> EB. apply (IH t2) with (t' := t'); [intros X; apply NI; now right|intros X; apply NA; now right|exact EB]. }
    cbn [rbind]. replace (rd b (length line + 1)) with (@Ok N 10%N) by (symmetry; unfold b; rewrite rd_app_r; reflexivity). cbn [rbind N.eqb Pos.eqb negb orb].
    replace (length line <? 16) with false by (symmetry; apply Nat.ltb_ge; lia).
    unfold b at 1. rewrite wr_one. cbn [rbind].
    set (post := 10%N :: tail).
    assert (SK : forall x, length x = length line + 1 -> skipn (length line + 2) (x ++ 10%N :: tail) = tail).
    { intros x LX. rewrite skipn_app, LX. rewrite skipn_all2 by lia. replace (length line + 2 - (length line + 1)) with 1 by lia. reflexivity. }
    assert (B1 : line ++ 0%N :: post = (PROXY_ ++ p5) ++ l ++ 0%N :: post) by (unfold line; now rewrite <- !app_assoc).
    rewrite !cmp_at_ok by (rewrite app_length; cbn [length TCP4_ TCP6_]; lia).
    replace (sub (line ++ 0%N :: post) 6 (length TCP4_)) with p5.
    2:{ rewrite B1. unfold sub. cbn [PROXY_ app skipn length TCP4_]. rewrite firstn_app, L5, Nat.sub_diag, firstn_O, app_nil_r. now rewrite firstn_all2 by lia. }
    replace (sub (line ++ 0%N :: post) 6 (length TCP6_)) with p5.
    2:{ rewrite B1. unfold sub. cbn [PROXY_ app skipn length TCP6_]. rewrite firstn_app, L5, Nat.sub_diag, firstn_O, app_nil_r. now rewrite firstn_all2 by lia. }
    cbn [rbind].
    assert (F0 : length (line ++ 0%N :: post) = dlen /\ skipn (length line + 2) (line ++ 0%N :: post) = tail).
    { split; [rewrite app_length; cbn [length post]; lia|]. change (line ++ 0%N :: post) with (line ++ [0%N] ++ post). rewrite app_assoc. apply SK. rewrite app_length. cbn. lia. }
    destruct (byte_eqb p5 TCP4_ || byte_eqb p5 TCP6_) eqn:EP.
    2:{ apply orb_false_iff in EP. destruct EP as [-> ->]. cbn [negb andb]. exists (line ++ 0%N :: post). split; [tauto|]. split; [tauto|reflexivity]. }
    replace (negb (byte_eqb p5 TCP4_) && negb (byte_eqb p5 TCP6_)) with false by (destruct (byte_eqb p5 TCP4_), (byte_eqb p5 TCP6_); cbn in *; congruence).
    assert (L11 : 11 = length (PROXY_ ++ p5)) by (rewrite app_length; cbn; lia).
    pose proof (strchr_at l dlen (PROXY_ ++ p5) post 11 L11 ltac:(lia)) as S1. rewrite <- B1 in S1. rewrite S1. cbn [rbind]. unfold fields.
    destruct (cut l) as [[src r1]|] eqn:C1; [|exists (line ++ 0%N :: post); split; [tauto|]; split; [tauto|reflexivity]].
    apply cut_some in C1. destruct C1 as (-> & NS & NS'). rewrite app_length in LP. cbn [length] in LP.
    replace (length line <=? 11 + length src) with false by (symmetry; apply Nat.leb_gt; lia).
    rewrite B1. set (p11 := PROXY_ ++ p5) in *.
    replace (p11 ++ (src ++ 32%N :: r1) ++ 0%N :: post) with ((p11 ++ src) ++ 32%N :: r1 ++ 0%N :: post) by now rewrite <- !app_assoc.
    rewrite wr_at by (rewrite app_length; lia). cbn [rbind].
    replace ((p11 ++ src) ++ 0%N :: r1 ++ 0%N :: post) with ((p11 ++ src ++ [0%N]) ++ r1 ++ 0%N :: post) by now rewrite <- !app_assoc.
    set (p1 := p11 ++ src ++ [0%N]). assert (L1 : 11 + length src + 1 = length p1) by (unfold p1; rewrite !app_length; cbn [length]; lia).
    assert (F1 : length (p1 ++ r1 ++ 0%N :: post) = dlen /\ skipn (length line + 2) (p1 ++ r1 ++ 0%N :: post) = tail).
    { split; [rewrite !app_length; cbn [length post]; lia|]. change (p1 ++ r1 ++ 0%N :: post) with (p1 ++ r1 ++ [0%N] ++ post). rewrite !app_assoc. apply SK. rewrite !app_length. cbn [length]. lia. }
    rewrite strchr_at by (auto; lia). cbn [rbind].
    destruct (cut r1) as [[dst r2]|] eqn:C2; [|exists (p1 ++ r1 ++ 0%N :: post); split; [tauto|]; split; [tauto|reflexivity]].
    apply cut_some in C2. destruct C2 as (-> & ND & ND'). rewrite app_length in LP. cbn [length] in LP.
    replace (length line <=? 11 + length src + 1 + length dst) with false by (symmetry; apply Nat.leb_gt; lia).
    replace (p1 ++ (dst ++ 32%N :: r2) ++ 0%N :: post) with ((p1 ++ dst) ++ 32%N :: r2 ++ 0%N :: post) by now rewrite <- !app_assoc.
    rewrite wr_at by (rewrite app_length; lia). cbn [rbind].
    replace ((p1 ++ dst) ++ 0%N :: r2 ++ 0%N :: post) with ((p1 ++ dst ++ [0%N]) ++ r2 ++ 0%N :: post) by now rewrite <- !app_assoc.
    set (p2 := p1 ++ dst ++ [0%N]). assert (L2 : 11 + length src + 1 + length dst + 1 = length p2) by (unfold p2; rewrite !app_length; cbn [length]; lia).
    assert (F2 : length (p2 ++ r2 ++ 0%N :: post) = dlen /\ skipn (length line + 2) (p2 ++ r2 ++ 0%N :: post) = tail).
    { split; [rewrite !app_length; cbn [length post]; lia|]. change (p2 ++ r2 ++ 0%N :: post) with (p2 ++ r2 ++ [0%N] ++ post). rewrite !app_assoc. apply SK. rewrite !app_length. cbn [length]. lia. }
    rewrite strchr_at by (auto; lia). cbn [rbind].
    destruct (cut r2) as [[sport rest]|] eqn:C3; [|exists (p2 ++ r2 ++ 0%N :: post); split; [tauto|]; split; [tauto|reflexivity]].
    apply cut_some in C3. destruct C3 as (-> & NP & NP'). rewrite app_length in LP. cbn [length] in LP.
    replace (length line <=? 11 + length src + 1 + length dst + 1 + length sport) with false by (symmetry; apply Nat.leb_gt; lia).
    replace (p2 ++ (sport ++ 32%N :: rest) ++ 0%N :: post) with ((p2 ++ sport) ++ 32%N :: rest ++ 0%N :: post) by now rewrite <- !app_assoc.
    rewrite wr_at by (rewrite app_length; lia). cbn [rbind].
    set (b4 := (p2 ++ sport) ++ 0%N :: rest ++ 0%N :: post).
    assert (F3 : length b4 = dlen /\ skipn (length line + 2) b4 = tail).
    { unfold b4. split; [rewrite !app_length; cbn [length post]; rewrite app_length; cbn [length post]; lia|]. change ((p2 ++ sport) ++ 0%N :: rest ++ 0%N :: post) with ((p2 ++ sport) ++ [0%N] ++ rest ++ [0%N] ++ post). rewrite !app_assoc. apply SK. rewrite !app_length. cbn [length]. lia. }
    replace (str_at dlen b4 11) with (Ok src).
    2:{ symmetry. replace b4 with (p11 ++ src ++ 0%N :: (dst ++ [0%N] ++ sport ++ 0%N :: rest ++ 0%N :: post)); [apply str_at_at; auto; lia|]. unfold b4, p2, p1. now rewrite <- !app_assoc. }
    cbn [rbind]. replace (str_at dlen b4 (11 + length src + 1 + length dst + 1)) with (Ok sport).
    2:{ symmetry. replace b4 with (p2 ++ sport ++ 0%N :: (rest ++ 0%N :: post)); [apply str_at_at; auto; lia|]. unfold b4. now rewrite <- !app_assoc. }
    cbn [rbind]. exists b4. split; [tauto|]. split; [tauto|]. destruct (getaddrinfo src sport) as [sa'|]; [|reflexivity]. unfold rassert, HDR_SIZE. reflexivity.
  Qed.
End Proxy.
