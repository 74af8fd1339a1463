(** Networks: putting a list in order never fails, and what the lines of the configuration give *)
From Coq Require Import ZArith String Sorting.Sorted Sorting.Permutation.
From Verif Require Import Base NetModel NetSpec NetBits NetProofs NetProofs2 NetProofs5 NetProofs7.
Local Open Scope list_scope.
Local Open Scope nat_scope.
Local Notation length := List.length.
Ltac Zify.zify_post_hook ::= idtac.

Lemma del_last d n : isdel d -> wfn n -> ~ net_le d n.
Proof.
  intros (E1 & E2) (HI & HM & _) LE. unfold net_le, net_sorter in LE. rewrite E1, E2 in LE.
  assert (HO : is_ip ones) by (split; [reflexivity|apply Forall_forall; intros v V; apply repeat_spec in V; subst; reflexivity]).
  rewrite cmp_bits in LE by auto.
  assert (G : forall b, length b = 128 -> lex (repeat true 128) b <> Lt).
  { clear. intros b L. assert (X : forall n b, length b = n -> lex (repeat true n) b <> Lt); [|auto]. clear. induction n as [|n IH]; intros [|[] b] L; cbn in *; try discriminate. apply IH. lia. }
  change (bits ones) with (repeat true 128) in LE. destruct (lex (repeat true 128) (bits (n_ip n))) eqn:EL; [|now apply (G (bits (n_ip n))) in EL; [|apply bits_len]|congruence].
  destruct (Nat.compare_spec 255 (n_mask n)); lia || congruence.
Qed.
Lemma wfn_not_del n : wfn n -> ~ isdel n.
Proof. intros (_ & HM & _) (_ & E). lia. Qed.

Lemma pass1_total : forall l na dels, Forall wfn (na :: l) -> StronglySorted le (na :: l) -> exists r k w K D,
  pass1 na dels l = Ok (r, k, w) /\ Permutation r (K ++ dels ++ D) /\ Forall wfn K /\ Forall isdel D /\ k = length dels + length D /\ length K + length D = S (length l) /\ K <> [] /\
  (D = [] -> r = na :: dels ++ l).
Proof.
  induction l as [|nb l IH]; intros na dels W SL; cbn [pass1].
  - exists (na :: dels), (length dels), false, [na], []. rewrite !app_nil_r. cbn [app length]. repeat split; auto; try (cbn; lia); discriminate.
  - inversion W as [|? ? WA W']; subst. inversion W' as [|? ? WB W'']; subst. apply StronglySorted_inv in SL as (SL & FL). inversion FL as [|? ? LE FL']; subst. pose proof (proj1 (StronglySorted_inv SL)) as SL'.
    destruct (net_eq na nb) eqn:EQ.
    + destruct (IH na (dels ++ [deleted nb])) as (r & k & w & K & D & -> & PR & WK & FD & EK & EL & NE & ND); [constructor; auto|constructor; auto|]. cbn [rbind].
      exists r, k, (negb (n_dc na =? n_dc nb)%N || w), K, (deleted nb :: D). split; [reflexivity|]. rewrite <- app_assoc in PR. split; [exact PR|]. split; [exact WK|]. split; [constructor; [apply del_is|exact FD]|]. split; [rewrite app_length in EK; cbn in *; lia|]. split; [cbn; lia|]. split; [exact NE|discriminate].
    + assert (LT : lt na nb) by (apply le_ne; [exact LE|]; intros E; apply net_eq_pre in E; auto; congruence).
      destruct (mergeable_pre na nb WA WB LT) as (m & -> & HT & _). cbn [rbind]. destruct m.
      * destruct (HT eq_refl) as [WW KN].
        assert (LA : le (absorb na nb) na).
        { apply pb_le. destruct KN as (_ & [(P & _)|(p & E1 & E2 & E3)]).
          - unfold absorb. destruct (Nat.eqb_spec (n_mask na) (n_mask nb)) as [EM|NM]; [|unfold pre at 1; cbn [n_ip n_mask]; apply pb_refl].
            exfalso. apply pb_same_len in P; [unfold lt in LT; rewrite P, lex_refl in LT; discriminate|rewrite (pre_len na WA), (pre_len nb WB); lia].
          - rewrite E3, E1. apply pb_app. }
        destruct (IH (absorb na nb) (dels ++ [deleted nb])) as (r & k & w & K & D & -> & PR & WK & FD & EK & EL & NE & ND); [constructor; auto| |].
        { constructor; [exact SL'|]. rewrite Forall_forall in *. intros x I. eapply le_trans; [exact LA|]. now apply FL'. }
        exists r, k, w, K, (deleted nb :: D). split; [reflexivity|]. rewrite <- app_assoc in PR. split; [exact PR|]. split; [exact WK|]. split; [constructor; [apply del_is|exact FD]|]. split; [rewrite app_length in EK; cbn in *; lia|]. split; [cbn; lia|]. split; [exact NE|discriminate].
      * destruct (IH nb [] W' SL) as (r & k & w & K & D & -> & PR & WK & FD & EK & EL & NE & ND). cbn [rbind].
        exists (na :: dels ++ r), (length dels + k), w, (na :: K), D. split; [reflexivity|]. cbn [app] in *.
        split. { constructor. rewrite PR. rewrite !app_assoc. apply Permutation_app_tail, Permutation_app_comm. }
        split; [constructor; auto|]. split; [exact FD|]. split; [cbn in *; lia|]. split; [cbn in *; lia|]. split; [discriminate|]. intros ->. now rewrite (ND eq_refl).
Qed.

Lemma sort_keeps s : forall K D, Permutation s (K ++ D) -> StronglySorted net_le s -> Forall wfn K -> Forall isdel D -> Forall wfn (firstn (length K) s).
Proof.
  intros K D P S WK FD.
  assert (DEL : forall s, StronglySorted net_le s -> Forall (fun n => wfn n \/ isdel n) s -> exists a b, s = a ++ b /\ Forall wfn a /\ Forall isdel b).
  { clear. induction s as [|n s IH]; intros S F; [exists [], []; auto|]. apply StronglySorted_inv in S as (S & SN). inversion F as [|? ? FN F']; subst. destruct FN as [W|I].
    - destruct (IH S F') as (a & b & -> & WA & IB). exists (n :: a), b. auto.
    - exists [], (n :: s). split; [reflexivity|]. split; [constructor|]. constructor; [exact I|]. rewrite Forall_forall in *. intros x IX. destruct (F' x IX) as [W|]; [|assumption]. exfalso. apply (del_last n x I W). now apply SN. }
  destruct (DEL s S) as (a & b & E & WA & IB).
  { rewrite Forall_forall in *. intros n I. apply (Permutation_in n P), in_app_iff in I as [I|I]; auto. }
  assert (L : length a = length K).
  { set (f := fun n => Nat.eqb (n_mask n) 255). assert (CW : forall l, Forall wfn l -> filter f l = []). { clear. induction 1 as [|n l W F IH]; [reflexivity|]. cbn [filter]. unfold f at 1. destruct (Nat.eqb_spec (n_mask n) 255) as [X|]; [destruct W as (_ & W & _); lia|exact IH]. }
    assert (CD : forall l, Forall isdel l -> filter f l = l). { clear. induction 1 as [|n l (_ & W) F IH]; [reflexivity|]. cbn [filter]. unfold f at 1. rewrite W. cbn [Nat.eqb]. now rewrite IH. }
    assert (PF : forall l l', Permutation l l' -> length (filter f l) = length (filter f l')). { clear. induction 1 as [|x l l' P IH|x y l|l l' l'' P1 IH1 P2 IH2]; cbn [filter]; [reflexivity|destruct (f x); cbn [length]; congruence|destruct (f x), (f y); reflexivity|congruence]. }
    pose proof (PF _ _ P) as X. rewrite E, !filter_app, CW, CD, CW, CD in X by assumption. cbn [app] in X. apply Permutation_length in P. rewrite E, !app_length in P. lia. }
  rewrite E, <- L. rewrite firstn_app, Nat.sub_diag, firstn_all. cbn [firstn]. now rewrite app_nil_r.
Qed.

Section Finish.
  Variable sort : list net -> list net.
  Hypothesis SO : sort_ok sort.
  Lemma sorted_le s : Forall wfn s -> StronglySorted net_le s -> StronglySorted le s.
  Proof. intros W S. induction S as [|a l S IH F]; constructor; inversion W; subst; auto. rewrite Forall_forall in *. intros b I. apply net_le_le; auto. Qed.
  Lemma firstn_sorted {R : net -> net -> Prop} k s : StronglySorted R s -> StronglySorted R (firstn k s).
  Proof. intros S. rewrite <- (firstn_skipn k s) in S. revert S. generalize (skipn k s). generalize (firstn k s). clear. induction l as [|a l IH]; intros b S; [constructor|]. cbn [app] in S. apply StronglySorted_inv in S as (S & F). constructor; [eapply IH, S|]. apply Forall_app in F. apply F. Qed.
  Lemma passes_total : forall fuel s, s <> [] -> length s <= fuel -> Forall wfn s -> StronglySorted net_le s -> exists L w, passes sort fuel s = Ok (L, w).
  Proof.
    induction fuel as [|fuel IH]; intros s NE L W S; [destruct s; [congruence|cbn in L; lia]|]. cbn [passes]. destruct s as [|n t]; [congruence|]. unfold normalize_1pass.
    destruct (pass1_total t n [] W (sorted_le _ W S)) as (r & k & w & K & D & -> & PR & WK & FD & EK & EL & NK & ND). cbn [rbind app] in *.
    destruct (Nat.eqb_spec k 0) as [->|NZ]; [cbn [rbind]; eauto|]. cbn [rbind]. destruct (SO r) as (P1 & P2).
    assert (LK : length (n :: t) - k = length K) by (cbn [length] in *; lia). rewrite LK.
    destruct (IH (firstn (length K) (sort r))) as (L' & w' & E).
    - intros X. apply (f_equal (@length net)) in X. rewrite firstn_length in X. apply Permutation_length in P1. apply Permutation_length in PR. rewrite app_length in PR. destruct K; [congruence|]. cbn [length] in *. lia.
    - rewrite firstn_length. cbn [length] in *. lia.
    - apply (sort_keeps (sort r) K D); auto. etransitivity; [exact P1|exact PR].
    - now apply firstn_sorted.
    - rewrite E. cbn [rbind]. eauto.
  Qed.
  Lemma finish_total L : Forall wfn L -> exists nl w, nlist_finish sort {| l_nets := L; l_norm := false |} = Ok (nl, w).
  Proof.
    intros W. unfold nlist_finish, nlist_normalize. cbn [l_norm l_nets]. destruct L as [|n L]; [eauto|]. cbn zeta. destruct (SO (n :: L)) as (P & S).
    destruct (passes_total (Datatypes.S (length (sort (n :: L)))) (sort (n :: L))) as (R & w & E).
    - intros X. rewrite X in P. now apply Permutation_nil in P.
    - lia.
    - rewrite Forall_forall in *. intros x I. apply W. eapply Permutation_in; [exact P|exact I].
    - exact S.
    - rewrite E. cbn [rbind]. eauto.
  Qed.
End Finish.
