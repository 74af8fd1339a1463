(** C55: which zone files make the daemon die. *)
From Coq Require Import Lia String.
From Verif Require Import Base DnameModel DnameSpec DnameProofs CompModel CompProofs RespModel RespSpec LtreeModel LtreeSpec LtreeProofs LtreeProps ZscanModel ZscanSpec ZscanProofs ZscanProofs7 ZscanProofs8 ZscanProofs9 ZscanProofs10 ZscanProofs11 ZscanProofs12 ZscanProofs13 ZscanProofs14 ZscanProofs15 ZscanProps.
Local Open Scope N_scope.
Local Notation length := List.length.

(** ** C55 *)
(** The process goes down only over an empty file, a deadly line, or files that
    are nested deeper than there is room for. *)
Theorem C55_only_these_files_kill : forall zone autosplit pton4 pton6 fs depth file ttl,
  legal_name zone -> (forall f raw, fs f = Some raw -> all_bytes raw) -> In 47 file ->
  zscan_rfc1035 (dname zone true) autosplit pton4 pton6 fs depth file ttl = UB ->
  nested fs depth file \/ exists p, reads fs file p /\ deadly_file fs p.
Proof.
  intros zone autosplit p4 p6 fs depth file ttl L Hfs Sl U. unfold zscan_rfc1035 in U. rewrite zscan_pad in U by exact L.
  exact (file_dies (dname zone true) zone (ex_intro _ [] (eq_sym (app_nil_r _))) L autosplit p4 p6 fs Hfs depth (padded zone) zone file ttl (padded_holds _ L) (ex_intro _ [] eq_refl) Sl U).
Qed.
Print Assumptions C55_only_these_files_kill.

(** Without these, a file is either read as it is written or refused. *)
Theorem C55_read_or_refused : forall zone autosplit pton4 pton6 fs depth file ttl,
  legal_name zone -> (forall f raw, fs f = Some raw -> all_bytes raw) -> In 47 file ->
  ~ nested fs depth file -> (forall p, reads fs file p -> ~ deadly_file fs p) ->
  (exists rs, zscan_rfc1035 (dname zone true) autosplit pton4 pton6 fs depth file ttl = Ok (Some rs) /\
     zfile zone autosplit pton4 pton6 fs depth zone file ttl rs) \/
  (zscan_rfc1035 (dname zone true) autosplit pton4 pton6 fs depth file ttl = Ok None /\
     forall d rs, ~ zfile zone autosplit pton4 pton6 fs d zone file ttl rs).
Proof.
  intros zone autosplit p4 p6 fs depth file ttl L Hfs Sl Nn Nd.
  destruct (zscan_rfc1035 (dname zone true) autosplit p4 p6 fs depth file ttl) as [[rs|]|] eqn:E.
  - left. exists rs. split; [reflexivity|]. now apply file_right in E.
  - right. split; [reflexivity|]. intros d rs Z. apply (zfile_shallow _ _ _ _ _ depth) in Z; [|exact Nn]. apply file_right in Z; auto. congruence.
  - exfalso. destruct (C55_only_these_files_kill _ _ _ _ _ _ _ _ L Hfs Sl E) as [X|(p & R & D)]; [contradiction|]. exact (Nd p R D).
Qed.
Print Assumptions C55_read_or_refused.

(** An empty file always kills, whatever else there is. *)
Theorem C55_empty_file_kills : forall zone autosplit pton4 pton6 fs depth file ttl,
  legal_name zone -> fs file = Some [] -> zscan_rfc1035 (dname zone true) autosplit pton4 pton6 fs depth file ttl = UB.
Proof.
  intros zone autosplit p4 p6 fs depth file ttl L E. unfold zscan_rfc1035. rewrite zscan_pad by exact L. destruct depth as [|n]; [reflexivity|]. cbn [zscan_do]. rewrite E.
  destruct (zst0_ok zone p4 p6 (fun _ => None) ltac:(discriminate) (padded zone) zone ttl (padded_holds _ L) (ex_intro _ [] eq_refl)) as (z & -> & _). reflexivity.
Qed.
Print Assumptions C55_empty_file_kills.

(** It is not so that files can only be read or refused: each of these zone
    files brings the daemon down. *)
Definition one_file (text : string) (f : bytes) : option bytes := if bytes_eqb f (codes "/z/ex.c") then Some (codes text) else None.
Definition scan_one (depth : nat) (text : string) : zres (list record) :=
  zscan_rfc1035 (dname zn true) true w54_pton4 (fun _ => None) (one_file text) depth (codes "/z/ex.c") 86400.
Theorem C55_never_kills_refuted :
  Forall (fun text => scan_one 5 text = UB)
    ["";
     "a CNAME " ++ qt ++ qt ++ nl; " NS " ++ qt ++ qt ++ nl; "a 60 in PTR " ++ qt ++ qt ++ nl; "a MX 1 " ++ qt ++ qt ++ nl;
     "a SRV 1 2 3 " ++ qt ++ qt ++ nl; "a NAPTR 1 2 a b c " ++ qt ++ qt ++ nl; "@ SOA " ++ qt ++ qt ++ " x" ++ nl; "@ SOA m " ++ qt ++ qt ++ " x" ++ nl;
     "$ORIGIN " ++ qt ++ qt ++ nl; "$INCLUDE " ++ qt ++ qt ++ nl; "$INCLUDE f " ++ qt ++ qt ++ nl;
     "a TYPE31 \# 0 " ++ nl; "a TYPE31 \# 4294967296 " ++ nl]%string.
Proof. repeat constructor. Qed.
Print Assumptions C55_never_kills_refuted.
(** A file that includes itself is read until the stack is full. *)
Theorem C55_endless_include_refuted : forall depth, scan_one depth ("$INCLUDE ex.c" ++ nl) = UB.
Proof.
  unfold scan_one, zscan_rfc1035. intros depth. rewrite zscan_pad by (apply legalb_ok; reflexivity). induction depth as [|n IH]; [reflexivity|]. cbn [zscan_do].
  assert (E : one_file ("$INCLUDE ex.c" ++ nl) (codes "/z/ex.c") = Some (codes ("$INCLUDE ex.c" ++ nl))) by reflexivity. rewrite E.
  revert IH. generalize (zscan_do (dname zn true) true w54_pton4 (fun _ => None) (one_file ("$INCLUDE ex.c" ++ nl)) n). intros incl IH. vm_compute in IH. vm_compute. now rewrite IH.
Qed.
Print Assumptions C55_endless_include_refuted.

(** Two files, one within the other, that are free of all this. *)
Fixpoint marked (l : bytes) : bool :=
  match l with
  | a :: ((b :: _) as r) => ((a =? 34) && (b =? 34)) || ((a =? 92) && (b =? 35)) || marked r
  | _ => false
  end.
Lemma marked_app x a b y : (a = 34 /\ b = 34) \/ (a = 92 /\ b = 35) -> marked (x ++ a :: b :: y) = true.
Proof.
  intros H. induction x as [|c x IH]; [cbn [app marked]; destruct H as [(-> & ->)|(-> & ->)]; reflexivity|].
  change ((c :: x) ++ a :: b :: y) with (c :: (x ++ a :: b :: y)). destruct (x ++ a :: b :: y) as [|d r] eqn:E; [destruct x; discriminate|]. cbn [marked]. cbn [marked] in IH. rewrite IH. apply orb_true_r.
Qed.
Lemma deadly_marked h y : deadly h -> marked (h ++ y) = true.
Proof.
  assert (Q : forall x, marked ((x ++ [34; 34]) ++ y) = true) by (intros x; rewrite <- app_assoc; cbn [app]; apply marked_app; auto).
  assert (DD : forall td x, deadly_data td -> marked ((x ++ td) ++ y) = true).
  { intros td x D. destruct D; rewrite ?app_assoc; try apply Q. rewrite <- !app_assoc. cbn [app]. rewrite !app_assoc. apply marked_app. auto. }
  intros D. destruct D as [o on b t topt td O B Op D|k b K B|k b K B|k b t f b1 K B T B1].
  - rewrite !app_assoc. rewrite <- (app_assoc _ td y). rewrite app_assoc. now apply DD.
  - change (36 :: k ++ b ++ [34; 34]) with ((36 :: k) ++ b ++ [34; 34]). rewrite (app_assoc (36 :: k)). apply Q.
  - change (36 :: k ++ b ++ [34; 34]) with ((36 :: k) ++ b ++ [34; 34]). rewrite (app_assoc (36 :: k)). apply Q.
  - change (36 :: k ++ b ++ t ++ b1 ++ [34; 34]) with ((36 :: k) ++ b ++ t ++ b1 ++ [34; 34]). rewrite !(app_assoc _ _ [34; 34]), !app_assoc. apply Q.
Qed.
Lemma marked_more x l : marked l = true -> marked (x ++ l) = true.
Proof.
  intros H. induction x as [|c x IH]; [exact H|]. change ((c :: x) ++ l) with (c :: (x ++ l)). destruct (x ++ l) as [|d r] eqn:E; [destruct x; [cbn in E; subst; discriminate|discriminate]|]. cbn [marked]. cbn [marked] in IH. rewrite IH. apply orb_true_r.
Qed.
Definition w55_main : string := "@ NS n" ++ nl ++ "$include sub d" ++ nl ++ "y 60 TXT ( " ++ qt ++ "a;b" ++ qt ++ nl ++ " c ) ; d" ++ nl.
Definition w55_sub : string := "n A 192.0.2.9" ++ nl.
Definition w55_fs (f : bytes) : option bytes :=
  if bytes_eqb f (codes "/z/ex.c") then Some (codes w55_main) else if bytes_eqb f (codes "/z/sub") then Some (codes w55_sub) else None.
Lemma w55_files f raw : w55_fs f = Some raw -> (f = codes "/z/ex.c" /\ raw = codes w55_main) \/ (f = codes "/z/sub" /\ raw = codes w55_sub).
Proof.
  unfold w55_fs. destruct (bytes_eqb f (codes "/z/ex.c")) eqn:E1; [intros [= <-]; left; split; [now apply bytes_eqb_spec|reflexivity]|].
  destruct (bytes_eqb f (codes "/z/sub")) eqn:E2; [intros [= <-]; right; split; [now apply bytes_eqb_spec|reflexivity]|discriminate].
Qed.
Lemma split_unique (a b x y : bytes) c : ~ In c a -> ~ In c b -> a ++ c :: b = x ++ c :: y -> x = a /\ y = b.
Proof.
  revert x. induction a as [|d a IH]; intros [|e x] Na Nb E; cbn in E.
  - injection E as ->. auto.
  - exfalso. injection E as <- ->. apply Nb, in_or_app. right. now left.
  - exfalso. injection E as -> _. apply Na. now left.
  - injection E as <- E. destruct (IH x) as (-> & ->); auto. intros I. apply Na. now right.
Qed.
Lemma include_head t f o : stmt_text t (Include f o) -> exists k b tx z, t = 36 :: k ++ b ++ tx ++ z /\ spells "include" k /\ blanks b /\ text_token tx f /\ (z = [] \/ blank (hd 0 z)).
Proof.
  intros S. inversion S; subst.
  - exists k, b, t0, []. rewrite app_nil_r. split; [reflexivity|]. split; [assumption|]. split; [assumption|]. split; [assumption|now left].
  - exists k, b, t0, (b1 ++ t1). split; [reflexivity|]. split; [assumption|]. split; [assumption|]. split; [assumption|]. right.
    match goal with K : blanks b1 |- _ => destruct K as (N0 & B1) end. destruct b1; [congruence|]. now inversion B1.
Qed.
Lemma w55_include p : includes w55_fs (codes "/z/ex.c") p -> p = codes "/z/sub".
Proof.
  intros (raw & text & x & t & y & f & o & d & f' & Ef & Lay & Et & _ & Hy & St & Un & C & P).
  apply layout_pre in Lay. injection Ef as <-. vm_compute in Lay. injection Lay as <-.
  destruct (include_head _ _ _ St) as (k & b & tx & z & -> & K & (Nb & B) & T & Hz). cbn [app] in Et.
  match type of Et with ?l = _ => assert (E0 : exists u v, l = u ++ 36 :: v /\ u = codes ("@ NS n" ++ nl) /\ v = skipn 8 l) by (eexists _, _; split; [|split; reflexivity]; reflexivity) end.
  destruct E0 as (u & v & E0 & Eu & Ev). rewrite E0 in Et. destruct (split_unique u v x ((k ++ b ++ tx ++ z) ++ y) 36) as (_ & X);
    [rewrite Eu; vm_compute; intuition discriminate|rewrite Ev; vm_compute; intuition discriminate|exact Et|]. rewrite Ev in X. clear E0 Eu Ev Et. rewrite <- !app_assoc in X. cbn [skipn] in X.
  assert (K7 : length k = 7%nat) by (unfold spells in K; apply (f_equal (@List.length N)) in K; now rewrite map_length in K).
  do 7 (destruct k as [|? k]; [discriminate|]). destruct k; [|discriminate]. cbn [app] in X. injection X as _ _ _ _ _ _ _ X.
  destruct b as [|b0 b]; [congruence|]. cbn [app] in X. injection X as _ X. inversion B as [|? ? _ B1]; subst. destruct b as [|b1 b]; [|exfalso; cbn [app] in X; injection X as -> _; inversion B1 as [|? ? B2 _]; unfold blank in B2; lia].
  cbn [app] in X.
  assert (R : txt_tok (tx ++ z ++ y) = Some (f, z ++ y)).
  { apply txt_tok_read. exists tx. split; [reflexivity|]. destruct T as [(Bt & ->)|Q]; [right|now left]. split; [reflexivity|]. split; [exact Bt|]. unfold ends.
    assert (E1 : z ++ y = [] \/ blank (hd 0 (z ++ y)) \/ hd 0 (z ++ y) = 10) by (destruct z; cbn in *; [tauto|destruct Hz; [discriminate|tauto]]).
    destruct (z ++ y) as [|c r]; [intros []|]. cbn [hd begins] in *. intros [(Np1 & Np2)|H]; destruct E1 as [E1|[E1|E1]]; [discriminate|contradiction|apply Np2; rewrite E1; now left|discriminate|unfold blank in E1; lia|lia]. }
  rewrite X in R. vm_compute in R. injection R as <- _.
  assert (Ed : d = codes "sub") by (eapply unescaped_fun; [exact Un|]; repeat (constructor; [discriminate|]); constructor). subst d.
  assert (Ec : f' = codes "sub") by (eapply cstring_fun; [exact C|]; split; [vm_compute; intuition discriminate|now left]). subst f'.
  eapply path_fun; [exact P|]. right. split; [discriminate|]. exists (codes "/z"), (codes "ex.c"). split; [reflexivity|]. split; [vm_compute; intuition discriminate|reflexivity].
Qed.
Lemma w55_leaf p : ~ includes w55_fs (codes "/z/sub") p.
Proof.
  intros (raw & text & x & t & y & f & o & d & f' & Ef & Lay & Et & _ & Hy & St & _). apply layout_pre in Lay. injection Ef as <-. vm_compute in Lay. injection Lay as <-.
  destruct (include_head _ _ _ St) as (k & b & tx & z & -> & _). assert (I : In 36 (x ++ (36 :: k ++ b ++ tx ++ z) ++ y)) by (apply in_or_app; right; now left).
  rewrite <- Et in I. vm_compute in I. intuition discriminate.
Qed.
Example C55_witness :
  legal_name zn /\ (forall f raw, w55_fs f = Some raw -> all_bytes raw) /\ In 47 (codes "/z/ex.c") /\
  ~ nested w55_fs 2 (codes "/z/ex.c") /\ nested w55_fs 1 (codes "/z/ex.c") /\ (forall p, reads w55_fs (codes "/z/ex.c") p -> ~ deadly_file w55_fs p) /\
  (exists p, reads w55_fs (codes "/z/ex.c") p /\ p <> codes "/z/ex.c") /\
  zscan_rfc1035 (dname zn true) true w54_pton4 (fun _ => None) w55_fs 2 (codes "/z/ex.c") 86400 =
    Ok (Some [ANs [] ([110] :: zn) 86400; AA [[110]; [100]] [192; 0; 2; 9] 86400 false; ATxt [[121]] [3; 97; 59; 98; 1; 99] 60]).
Proof.
  assert (Inc : includes w55_fs (codes "/z/ex.c") (codes "/z/sub")).
  { destruct (pre_layout _ (codes w55_main) false false (le_n _) (or_intror eq_refl)) as [(text & E & Lay)|E]; vm_compute in E; [injection E as E|discriminate].
    exists (codes w55_main), text, (codes ("@ NS n" ++ nl)), (codes "$include sub d"), (skipn 21 text), (codes "sub"), (Some (codes "d")), (codes "sub"), (codes "sub").
    assert (Bu : forall s, Forall plain (codes s) -> codes s <> [] -> bare (codes s)).
    { intros s F N0. split; [exact N0|]. clear N0. induction F as [|c l Pc F IH]; constructor; auto. now apply plain_92. }
    assert (B32 : blanks [32]) by (split; [discriminate|repeat constructor]).
    assert (Pl : Forall plain (codes "sub") /\ Forall plain (codes "d")) by (split; repeat constructor; unfold blank; vm_compute; intuition discriminate).
    split; [reflexivity|]. split; [exact Lay|]. rewrite <- E. split; [reflexivity|]. split; [right; exists (codes "@ NS n"); reflexivity|]. split; [right; reflexivity|]. split.
    - apply (st_include_at (codes "include") [32] (codes "sub") (codes "sub") [32] (codes "d") (codes "d")); auto; [reflexivity|left; split; [apply Bu; [apply Pl|discriminate]|reflexivity]|].
      left. split; [apply Bu; [apply Pl|discriminate]|]. split; [reflexivity|discriminate].
    - split; [repeat (constructor; [discriminate|]); constructor|]. split; [split; [vm_compute; intuition discriminate|now left]|].
      right. split; [discriminate|]. exists (codes "/z"), (codes "ex.c"). split; [reflexivity|]. split; [vm_compute; intuition discriminate|reflexivity]. }
  split; [apply legalb_ok; reflexivity|]. split.
  - intros f raw E. apply w55_files in E. assert (B : forall s, all_bytes (codes s)).
    { intros s. unfold codes. apply Forall_forall. intros c I. apply in_map_iff in I. destruct I as (a & <- & _). apply Ascii.N_ascii_bounded. }
    destruct E as [(_ & ->)|(_ & ->)]; apply B.
  - split; [now left|]. split; [intros (p & I & q & J & _); apply w55_include in I; subst p; now apply w55_leaf in J|]. split; [exists (codes "/z/sub"); split; [exact Inc|exact Logic.I]|]. split.
    + intros p _ [E|(raw & text & E & Lay & x & h & y & -> & _ & D)]; [apply w55_files in E as [(_ & E)|(_ & E)]; discriminate|].
      apply layout_pre in Lay. assert (M := marked_more x _ (deadly_marked h y D)). revert Lay M. generalize (x ++ h ++ y). intros text Lay M.
      apply w55_files in E as [(_ & ->)|(_ & ->)]; vm_compute in Lay; injection Lay as <-; vm_compute in M; discriminate.
    + split; [exists (codes "/z/sub"); split; [eapply re_include; [exact Inc|constructor]|discriminate]|]. vm_compute. reflexivity.
Qed.
