(** Proofs about the pipe and the commands on it. *)
From Verif Require Import Base ExtModel ExtSpec.

(** ** The pipe *)
Lemma read_sound p : forall n d p', read_nbytes p n = Some (Some (d, p')) -> length d = n /\ stream p = d ++ stream p'.
Proof.
  induction p as [|x p IH]; intros n d p' E.
  - cbn [read_nbytes] in E. destruct (n =? 0) eqn:Z; [|discriminate]. injection E as <- <-. apply Nat.eqb_eq in Z. auto.
  - cbn [read_nbytes] in E. destruct (n =? 0) eqn:Z; [injection E as <- <-; apply Nat.eqb_eq in Z; auto|]. apply Nat.eqb_neq in Z. destruct x as [b| | |]; try discriminate.
    + destruct (n <? length b) eqn:L.
      * apply Nat.ltb_lt in L. assert (E' : d = firstn n b /\ p' = RBytes (skipn n b) :: p) by (inversion E; auto). destruct E' as [-> ->]. cbn [stream]. split; [rewrite firstn_length; lia|]. now rewrite app_assoc, firstn_skipn.
      * apply Nat.ltb_ge in L. destruct (read_nbytes p (n - length b)) as [[[r q]|]|] eqn:R; try discriminate. injection E as <- <-. destruct (IH _ _ _ R) as [A B]. cbn [stream]. rewrite B, app_length. split; [lia|]. now rewrite app_assoc.
    + apply IH in E. exact E.
Qed.
Lemma read_complete p : forall d rest, stream p = d ++ rest -> exists p', read_nbytes p (length d) = Some (Some (d, p')) /\ stream p' = rest.
Proof.
  induction p as [|x p IH]; intros d rest E.
  - cbn [stream] in E. symmetry in E. apply app_eq_nil in E. destruct E as [-> ->]. exists []. auto.
  - destruct d as [|y d]; [exists (x :: p); auto|]. remember (y :: d) as dd eqn:ED. assert (NZ : length dd =? 0 = false) by (subst; reflexivity). assert (NN : dd <> []) by (subst; discriminate). clear ED.
    cbn [read_nbytes]. rewrite NZ. destruct x as [b| | |]; cbn [stream] in E.
    + destruct (length dd <? length b) eqn:L.
      * apply Nat.ltb_lt in L. assert (F : dd = firstn (length dd) b) by (apply (f_equal (firstn (length dd))) in E; rewrite !firstn_app, Nat.sub_diag, firstn_O, app_nil_r, firstn_all in E; replace (length dd - length b) with 0 in E by lia; now rewrite firstn_O, app_nil_r in E).
        eexists. rewrite <- F. split; [reflexivity|]. cbn [stream]. rewrite <- (firstn_skipn (length dd) b) in E. rewrite <- F in E. rewrite <- app_assoc in E. now apply app_inv_head in E.
      * apply Nat.ltb_ge in L. assert (F : dd = b ++ skipn (length b) dd).
        { apply (f_equal (firstn (length b))) in E. rewrite !firstn_app, Nat.sub_diag, firstn_O, app_nil_r, firstn_all in E. replace (length b - length dd) with 0 in E by lia. rewrite firstn_O, app_nil_r in E. rewrite E at 1. now rewrite firstn_skipn. }
        set (d2 := skipn (length b) dd) in *. rewrite F in E. rewrite <- app_assoc in E. apply app_inv_head in E. destruct (IH _ _ E) as (p' & R & S'). exists p'. replace (length dd - length b) with (length d2) by (rewrite F, app_length; lia). rewrite R, <- F. auto.
    + destruct (IH _ _ E) as (p' & R & S'). exists p'. auto.
    + symmetry in E. apply app_eq_nil in E. tauto.
    + symmetry in E. apply app_eq_nil in E. tauto.
Qed.
Lemma write_sound w : forall s o ok w', write_string w s = Some (o, ok, w') -> if ok then o = s else exists t, t <> [] /\ s = o ++ t.
Proof.
  induction w as [|x w IH]; intros s o ok w' E.
  - destruct s; cbn [write_string] in E; [|discriminate]. now injection E as <- <- <-.
  - destruct s as [|y s]; [cbn [write_string] in E; now injection E as <- <- <-|]. remember (y :: s) as ss eqn:ES. assert (NN : ss <> []) by (subst; discriminate). cbn [write_string] in E. rewrite ES in E at 1. cbv iota in E.
    destruct x as [k| |].
    + cbv zeta in E. set (k' := Nat.max 1 (Nat.min k (length ss))) in E. clearbody k'. destruct (write_string w (skipn k' ss)) as [[[o1 ok1] w1]|] eqn:R; [|discriminate]. assert (E' : o = firstn k' ss ++ o1 /\ ok = ok1) by (inversion E; auto). destruct E' as [-> ->]. apply IH in R. destruct ok1.
      * subst o1. apply firstn_skipn.
      * destruct R as (t & T & R). exists t. split; [exact T|]. rewrite <- app_assoc, <- R. symmetry. apply firstn_skipn.
    + apply IH in E. exact E.
    + injection E as <- <- <-. exists ss. auto.
Qed.

(** ** Making a command *)
Section Make.
  Variable junk : N.
  Lemma grow_ok fuel : forall buf need, 1 <= length buf -> need < fuel + length buf -> 1 <= fuel ->
    exists t, grow junk fuel buf need = Ok (buf ++ t) /\ need <= length (buf ++ t).
  Proof.
    induction fuel as [|fuel IH]; intros buf need NB NF F1; [lia|]. cbn [grow]. destruct (length buf <? need) eqn:L.
    - apply Nat.ltb_lt in L. destruct (IH (buf ++ repeat junk (length buf)) need) as (t & E & B).
      + rewrite app_length. lia.
      + rewrite app_length, repeat_length. lia.
      + lia.
      + exists (repeat junk (length buf) ++ t). rewrite app_assoc. auto.
    - apply Nat.ltb_ge in L. exists []. rewrite app_nil_r. auto.
  Qed.
  Lemma put_str_ok p rest s : p <> [] -> exists rest', put_str junk (p ++ rest) (length p) s = Ok (p ++ zstr s ++ rest', length (p ++ zstr s)) /\ 16 <= length rest'.
  Proof.
    intros NP. unfold put_str. destruct (@grow_ok (S (length p + (length s + 1) + 16)) (p ++ rest) (length p + (length s + 1) + 16)) as (t & E & B); [rewrite app_length; destruct p; [congruence|cbn; lia]|lia|lia|].
    rewrite E. cbn [rbind]. rewrite <- app_assoc in B |- *. rewrite app_length in B. rewrite wr_prefix by (rewrite app_length; cbn [length]; lia). cbn [rbind].
    exists (skipn (length (s ++ [0%N])) (rest ++ t)). unfold zstr. rewrite (app_length p), (app_length s). cbn [length]. split; [reflexivity|]. rewrite skipn_length. lia.
  Qed.
  Lemma put_args_ok args : forall p rest, p <> [] -> exists rest', put_args junk (p ++ rest) (length p) args = Ok (p ++ flat_map zstr args ++ rest', length (p ++ flat_map zstr args)).
  Proof.
    induction args as [|a args IH]; intros p rest NP; cbn [put_args flat_map].
    - exists rest. now rewrite app_nil_r.
    - destruct (put_str_ok p rest a NP) as (r1 & -> & _). cbn [rbind]. rewrite app_assoc. destruct (IH (p ++ zstr a) r1) as (r2 & ->); [destruct p; [congruence|discriminate]|]. exists r2. now rewrite <- !app_assoc.
  Qed.
  Lemma make_ok c : length (c_args c) <= 255 -> make_command junk c = Ok (wire c).
  Proof.
    intros LA. unfold make_command. cbv zeta.
    set (hd12 := CMD_ ++ be16 (c_idx c) ++ be16 (c_timeout c) ++ be16 (c_interval c) ++ be16 (c_max_proc c)).
    assert (L12 : length hd12 = 12) by reflexivity.
    assert (G : (do buf <- wr (repeat junk 256) 0 CMD_;
      do buf <- wr buf 4 (be16 (c_idx c)); do buf <- wr buf 6 (be16 (c_timeout c));
      do buf <- wr buf 8 (be16 (c_interval c)); do buf <- wr buf 10 (be16 (c_max_proc c));
      wr buf 14 [(N.of_nat (length (c_args c)) mod 256)%N]) = Ok (hd12 ++ [junk; junk] ++ [(N.of_nat (length (c_args c)) mod 256)%N] ++ repeat junk 241)) by reflexivity.
    destruct (wr (repeat junk 256) 0 CMD_) as [b0|]; [|discriminate G]. cbn [rbind] in G |- *.
    destruct (wr b0 4 _) as [b1|]; [|discriminate G]. cbn [rbind] in G |- *. destruct (wr b1 6 _) as [b2|]; [|discriminate G]. cbn [rbind] in G |- *. destruct (wr b2 8 _) as [b3|]; [|discriminate G]. cbn [rbind] in G |- *.
    destruct (wr b3 10 _) as [b4|]; [|discriminate G]. cbn [rbind] in G |- *. rewrite G. cbn [rbind]. clear G b0 b1 b2 b3 b4.
    rewrite N.mod_small by lia. set (na := N.of_nat (length (c_args c))).
    set (p15 := hd12 ++ [junk; junk] ++ [na]). assert (L15 : length p15 = 15) by reflexivity.
    replace (hd12 ++ [junk; junk] ++ [na] ++ repeat junk 241) with (p15 ++ repeat junk 241) by (unfold p15; now rewrite <- !app_assoc).
    destruct (put_args_ok (c_args c) p15 (repeat junk 241)) as (r1 & E1); [discriminate|]. rewrite L15 in E1. rewrite E1. cbn [rbind]. rewrite app_assoc.
    destruct (put_str_ok (p15 ++ flat_map zstr (c_args c)) r1 (c_desc c)) as (r2 & E2 & _); [discriminate|]. rewrite E2. cbn [rbind].
    assert (LP : length ((p15 ++ flat_map zstr (c_args c)) ++ zstr (c_desc c)) = 14 + length (payload c)) by (rewrite !app_length, L15; unfold payload; cbn [length]; rewrite app_length; lia).
    rewrite LP. replace (14 + length (payload c) - 14) with (length (payload c)) by lia.
    assert (EB : (p15 ++ flat_map zstr (c_args c)) ++ zstr (c_desc c) ++ r2 = hd12 ++ [junk; junk] ++ payload c ++ r2) by (unfold p15, payload; rewrite <- !app_assoc; cbn [app]; now rewrite <- app_assoc).
    rewrite EB, <- L12. rewrite wr_prefix by (cbn [length be16 app]; lia). cbn [rbind]. rewrite rdn_ok.
    - unfold sub, wire. cbn [skipn]. f_equal. change (length (be16 (N.of_nat (length (payload c))))) with 2. cbn [skipn app].
      replace (hd12 ++ be16 (N.of_nat (length (payload c))) ++ payload c ++ r2) with ((CMD_ ++ be16 (c_idx c) ++ be16 (c_timeout c) ++ be16 (c_interval c) ++ be16 (c_max_proc c) ++ be16 (N.of_nat (length (payload c))) ++ payload c) ++ r2) by (unfold hd12; now rewrite <- !app_assoc).
      rewrite firstn_app. match goal with |- firstn ?n ?l ++ _ = ?l => assert (LL : length l = n) by (rewrite !app_length; reflexivity); rewrite <- LL at 1; rewrite firstn_all, <- LL, Nat.sub_diag, firstn_O, app_nil_r; reflexivity end.
    - rewrite !app_length, skipn_length, !app_length. cbn [length be16]. rewrite L12. lia.
  Qed.
End Make.

(** ** Reading a command *)
Lemma take_str_zstr s r : cstr s -> take_str (zstr s ++ r) = Some (s, r).
Proof.
  unfold zstr. induction s as [|x s IH]; intros C; [reflexivity|]. inversion C as [|? ? [H _] C']; subst. cbn [app take_str]. apply N.eqb_neq in H. rewrite H. now rewrite IH.
Qed.
Lemma take_str_sound b : forall s r, all_bytes b -> take_str b = Some (s, r) -> b = zstr s ++ r /\ cstr s /\ all_bytes r.
Proof.
  induction b as [|x b IH]; intros s r AB E; cbn [take_str] in E; [discriminate|]. inversion AB as [|? ? HX AB']; subst. destruct (N.eqb_spec x 0) as [->|NZ].
  - injection E as <- <-. repeat split; [constructor|assumption].
  - destruct (take_str b) as [[s1 r1]|] eqn:R; [|discriminate]. injection E as <- <-. destruct (IH _ _ AB' eq_refl) as (-> & C & A). repeat split; [constructor; [split; [exact NZ|exact HX]|exact C]|exact A].
Qed.
Lemma take_args_wire args : forall r, Forall cstr args -> take_args (length args) (flat_map zstr args ++ r) = Some (args, r).
Proof.
  induction args as [|a args IH]; intros r C; [reflexivity|]. inversion C; subst. cbn [length take_args flat_map]. rewrite <- app_assoc, take_str_zstr by assumption. now rewrite IH.
Qed.
Lemma take_args_sound n : forall b l r, all_bytes b -> take_args n b = Some (l, r) -> b = flat_map zstr l ++ r /\ length l = n /\ Forall cstr l /\ all_bytes r.
Proof.
  induction n as [|n IH]; intros b l r AB E; cbn [take_args] in E; [injection E as <- <-; auto|].
  destruct (take_str b) as [[a b1]|] eqn:T; [|discriminate]. destruct (take_args n b1) as [[l1 b2]|] eqn:T2; [|discriminate]. injection E as <- <-.
  destruct (take_str_sound _ _ _ AB T) as (-> & C & A1). destruct (IH _ _ _ A1 T2) as (-> & LN & CL & A2). cbn [flat_map length]. rewrite <- app_assoc. auto.
Qed.
Lemma get16_back a b : (a < 256 -> b < 256 -> be16 (get16 a b) = [a; b])%N.
Proof. intros A B. unfold be16, get16. f_equal; [|f_equal]; lia. Qed.

Definition fixed_part (c : cmd) : bytes := CMD_ ++ be16 (c_idx c) ++ be16 (c_timeout c) ++ be16 (c_interval c) ++ be16 (c_max_proc c) ++ be16 (N.of_nat (length (payload c))).
Lemma wire_split c : wire c = fixed_part c ++ payload c.
Proof. unfold wire, fixed_part. now rewrite <- !app_assoc. Qed.
Lemma read_command_complete c p rest : representable c -> stream p = wire c ++ rest -> exists p', read_command p = Some (Some (c, p')) /\ stream p' = rest.
Proof.
  intros ((B1 & B2 & B3 & B4) & (A1 & A2) & CA & CD & P4 & PL) S'. rewrite wire_split, <- app_assoc in S'. destruct (read_complete _ _ _ S') as (p1 & R1 & S1). destruct (read_complete _ _ _ S1) as (p2 & R2 & S2).
  exists p2. split; [|exact S2]. unfold read_command. change 14 with (length (fixed_part c)). rewrite R1.
  change (firstn 4 (fixed_part c)) with CMD_. destruct (list_eq_dec N.eq_dec CMD_ CMD_) as [_|X]; [|congruence]. cbn [negb]. cbv zeta.
  unfold fixed_part. cbn [CMD_ be16 app nth]. rewrite !get16_be16 by assumption. rewrite Nat2N.id. assert (Q : length (payload c) <? 4 = false) by (apply Nat.ltb_ge; exact P4). rewrite Q, R2. clear Q.
  change (hd 0%N (payload c)) with (N.of_nat (length (c_args c))). change (tl (payload c)) with (flat_map zstr (c_args c) ++ zstr (c_desc c)). rewrite Nat2N.id. assert (Q : length (c_args c) =? 0 = false) by (apply Nat.eqb_neq; lia). rewrite Q. rewrite take_args_wire by exact CA.
  rewrite <- (app_nil_r (zstr (c_desc c))), take_str_zstr by exact CD. now destruct c.
Qed.
Lemma all_bytes_app a b : all_bytes (a ++ b) -> all_bytes a /\ all_bytes b.
Proof. unfold all_bytes. apply Forall_app. Qed.
Lemma read_command_sound c p p' : all_bytes (stream p) -> read_command p = Some (Some (c, p')) -> representable c /\ stream p = wire c ++ stream p'.
Proof.
  intros AB E. unfold read_command in E. destruct (read_nbytes p 14) as [[[f p1]|]|] eqn:R1; try discriminate. destruct (read_sound _ _ _ _ R1) as [LF S1].
  do 14 (destruct f as [|? f]; [discriminate LF|]). destruct f; [|discriminate LF]. cbn [firstn] in E.
  destruct (list_eq_dec N.eq_dec _ CMD_) as [EQ|]; [|discriminate]. cbn [negb] in E. cbv zeta in E. cbn [nth] in E. unfold CMD_ in EQ. injection EQ as -> -> -> ->.
  destruct (N.to_nat (get16 n11 n12) <? 4) eqn:L4; [discriminate|]. apply Nat.ltb_ge in L4. destruct (read_nbytes p1 _) as [[[v p2]|]|] eqn:R2; try discriminate. destruct (read_sound _ _ _ _ R2) as [LV S2].
  rewrite S1 in AB. apply all_bytes_app in AB. destruct AB as [ABf AB1]. rewrite S2 in AB1. apply all_bytes_app in AB1. destruct AB1 as [ABv _].
  destruct v as [|na v]; [cbn [length] in LV; lia|]. cbn [hd tl] in E. destruct (N.to_nat na =? 0) eqn:NA; [discriminate|]. apply Nat.eqb_neq in NA.
  inversion ABv as [|? ? HNA ABv']; subst. destruct (take_args (N.to_nat na) v) as [[args r]|] eqn:TA; [|discriminate]. destruct (take_args_sound _ _ _ _ ABv' TA) as (-> & LA & CA & ABr).
  destruct (take_str r) as [[d [|]]|] eqn:TS; try discriminate. destruct (take_str_sound _ _ _ ABr TS) as (-> & CD & _). injection E as <- <-. rewrite app_nil_r in *.
  unfold all_bytes, is_byte in *. do 14 (apply Forall_cons_iff in ABf; let B := fresh in destruct ABf as [B ABf]; cbv beta in B).
  assert (PL : length (na :: flat_map zstr args ++ zstr d) = N.to_nat (get16 n11 n12)) by exact LV.
  assert (NAE : N.of_nat (length args) = na) by lia.
  assert (G : forall a b : N, (a < 256 -> b < 256 -> get16 a b < 65536)%N) by (intros a b ? ?; unfold get16; lia).
  split.
  - unfold representable, payload. cbn [c_idx c_timeout c_interval c_max_proc c_args c_desc]. rewrite NAE, PL. rewrite N2Nat.id. repeat split; try (apply G; assumption); try assumption; try lia.
  - rewrite S1, S2. unfold wire, payload. cbn [c_idx c_timeout c_interval c_max_proc c_args c_desc]. rewrite NAE, PL, N2Nat.id. rewrite !get16_back by assumption. reflexivity.
Qed.
