(** C32: PROXY headers. *)
From Verif Require Import Base ProxyModel ProxySpec ProxyProofs ProxyProofs2 TcpModel TcpSpec TcpProofs TcpProps.

(** Every read and write stays within the received bytes, whatever they are, as
    long as no line of text is longer than the protocol's limit; at most what was
    received is consumed. *)
Theorem C32_stays_within_received_bytes : forall getaddrinfo b sa, short_line b ->
  exists n sa' b', proxy_parse getaddrinfo b sa = Ok (n, sa', b') /\ n <= length b.
Proof.
  intros g b sa SL. destruct (parse_safe g b sa SL) as (n & sa' & b' & E). exists n, sa', b'. split; [exact E|]. exact (parse_bound _ _ _ _ _ _ E).
Qed.
Print Assumptions C32_stays_within_received_bytes.

(** What is accepted is a header, exactly what is consumed, and the peer is the one
    it names; the bytes after it are untouched. *)
Theorem C32_accepts_only_headers : forall getaddrinfo b sa n sa' b', all_bytes b ->
  proxy_parse getaddrinfo b sa = Ok (n, sa', b') -> n <> 0 ->
  header getaddrinfo sa (firstn n b) sa' /\ skipn n b' = skipn n b.
Proof. intros g b sa n sa' b' AB E NZ. destruct (parse_sound g b sa n sa' b' AB E) as (_ & _ & H). destruct (H NZ) as [A B]. auto. Qed.
Print Assumptions C32_accepts_only_headers.

(** Every header is accepted, whatever follows it. *)
Theorem C32_accepts_every_header : forall getaddrinfo sa h sa' t,
  header getaddrinfo sa h sa' -> length h <= 108 \/ firstn 12 h = v2sig ->
  exists b', proxy_parse getaddrinfo (h ++ t) sa = Ok (length h, sa', b') /\ skipn (length h) b' = t.
Proof. intros g sa h sa' t H SH. destruct (parse_complete g sa h sa' t H SH) as (b' & A & _ & B). eauto. Qed.
Print Assumptions C32_accepts_every_header.

(** A header that has arrived only in part is refused: it is never taken for another one. *)
Theorem C32_no_half_header : forall getaddrinfo sa h sa' p t,
  header getaddrinfo sa h sa' -> all_bytes h -> length h <= 108 \/ firstn 12 h = v2sig -> h = p ++ t -> t <> [] ->
  forall n sa2 b2, proxy_parse getaddrinfo p sa = Ok (n, sa2, b2) -> n = 0.
Proof.
  intros g sa h sa' p t H AB SH EH NT n sa2 b2 E. destruct (Nat.eq_dec n 0) as [|NZ]; [assumption|exfalso].
  assert (ABp : all_bytes p) by (rewrite EH in AB; unfold all_bytes in *; now apply Forall_app in AB).
  destruct (parse_sound g p sa n sa2 b2 ABp E) as (_ & LN & HH). destruct (HH NZ) as [_ H2].
  assert (LP : length p < length h) by (rewrite EH, app_length; destruct t; [congruence|cbn; lia]).
  assert (LF : length (firstn n p) = n) by now apply firstn_length_le.
  assert (S2 : length (firstn n p) <= 108 \/ firstn 12 (firstn n p) = v2sig).
  { destruct SH as [SH|SH]; [left; lia|right]. pose proof (header_long g _ _ _ H2) as L2. rewrite <- SH, EH, firstn_firstn. rewrite Nat.min_l by lia. rewrite firstn_app. replace (12 - length p) with 0 by lia. now rewrite firstn_O, app_nil_r. }
  destruct (parse_complete g sa h sa' [] H SH) as (b' & E1 & _). rewrite app_nil_r in E1.
  destruct (parse_complete g sa (firstn n p) sa2 (skipn n p ++ t) H2 S2) as (b'' & E2 & _). rewrite app_assoc, firstn_skipn, <- EH in E2. rewrite E1 in E2. assert (X : length h = length (firstn n p)) by (inversion E2; auto). lia.
Qed.
Print Assumptions C32_no_half_header.

(** On a listener for proxies the requests of a connection are the frames of what
    follows the header. *)
Definition consumed (getaddrinfo : bytes -> bytes -> option peer) (sa : peer) (b : bytes) : nat :=
  match proxy_parse getaddrinfo b sa with Ok (n, _, _) => n | UB => 0 end.
Theorem C32_requests_follow_the_header : forall served getaddrinfo sa es r,
  run served (consumed getaddrinfo sa) (conn_init true) es r ->
  exists c, r = Ok c /\ Forall legal (out c) /\
    (out c = [] /\ (received es = [] \/ closed c = Some ProxyFail) \/
     exists rest, skipn (consumed getaddrinfo sa (first_read es)) (received es) = framed (out c) ++ rest /\
       match closed c with
       | None => incomplete rest /\ active c = ReadW \/ has_request rest /\ active c = CheckW
       | Some BadLength => illegal rest
       | Some _ => True
       end).
Proof.
  intros served g sa es r RN. destruct (C29_requests_are_the_frames served (consumed g sa) true es r) as (c & A & B & C); [|exact RN|].
  - intros b. unfold consumed. destruct (proxy_parse g b sa) as [[[n sa'] b']|] eqn:E; [exact (parse_bound _ _ _ _ _ _ E)|lia].
  - exists c. split; [exact A|]. split; [exact B|]. destruct C as [(_ & C)|C]; [left; exact C|right; exact C].
Qed.
Print Assumptions C32_requests_follow_the_header.

(** A line longer than the protocol allows, with a destination that nobody checks,
    violates an assertion (proxy.c:93). *)
Definition any_addr (_ _ : bytes) : option peer := Some (Inet [1; 2; 3; 4]%N [0; 53]%N).
Theorem C32_long_line_refuted : exists b sa, length b = 120 /\ proxy_parse any_addr b sa = UB.
Proof. exists (PROXY_ ++ TCP4_ ++ [49; 32]%N ++ repeat 65%N 100 ++ [32; 50; 32; 51]%N ++ [13; 10; 0]%N), Zero. vm_compute. auto. Qed.
Print Assumptions C32_long_line_refuted.

(** "PROXY TCP4 1.2.3.4 5.6.7.8 99 53" and a request, and a binary header. *)
Definition ex_line : bytes := PROXY_ ++ TCP4_ ++ [49; 46; 50; 46; 51; 46; 52; 32; 53; 46; 54; 46; 55; 46; 56; 32; 57; 57; 32; 53; 51]%N.
Definition ex_bin : bytes := v2sig ++ [33; 17; 0; 14]%N ++ [10; 0; 0; 1; 10; 0; 0; 2; 4; 5; 0; 53; 9; 9]%N.
Example C32_witness :
  (match proxy_parse any_addr (ex_line ++ [13; 10; 0; 12]%N) Zero with Ok (n, sa, b) => Some (n, sa, skipn n b) | UB => None end) = Some (34, Inet [1; 2; 3; 4]%N [0; 53]%N, [0; 12]%N) /\
  (match proxy_parse any_addr (ex_bin ++ [0; 12]%N) Zero with Ok (n, sa, b) => Some (n, sa, skipn n b) | UB => None end) = Some (30, Inet [10; 0; 0; 1]%N [4; 5]%N, [0; 12]%N) /\
  short_line (ex_line ++ [13; 10; 0; 12]%N) /\ header any_addr Zero (ex_line ++ [13; 10]%N) (Inet [1; 2; 3; 4]%N [0; 53]%N).
Proof.
  split; [vm_compute; reflexivity|]. split; [vm_compute; reflexivity|]. split.
  - intros l t E _. apply (f_equal (@length N)) in E. rewrite (app_length l) in E. cbn in E. lia.
  - change ex_line with (PROXY_ ++ TCP4_ ++ [49; 46; 50; 46; 51; 46; 52]%N ++ 32%N :: [53; 46; 54; 46; 55; 46; 56]%N ++ 32%N :: [57; 57]%N ++ 32%N :: [53; 51]%N).
    apply text_header; [auto| | | | |cbn; lia|reflexivity]; try (repeat split); cbn; intuition discriminate.
Qed.
