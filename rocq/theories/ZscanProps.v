(** C54: zone files are read as they are written. *)
From Coq Require Import Lia String.
From Verif Require Import Base DnameModel DnameSpec DnameProofs CompModel RespModel RespSpec LtreeModel LtreeSpec LtreeProofs LtreeProps ZscanModel ZscanSpec ZscanProofs7 ZscanProofs12 ZscanProofs13.
Local Open Scope N_scope.
Local Notation length := List.length.

(** ** C54 *)
(** For any files, nested as deep as there is room for: the scanner gives
    records if the zone's file has a meaning, and then it gives those. *)
Theorem C54_files_are_read_as_written : forall zone autosplit pton4 pton6 fs depth file ttl rs,
  legal_name zone -> (forall f raw, fs f = Some raw -> all_bytes raw) ->
  zscan_rfc1035 (dname zone true) autosplit pton4 pton6 fs depth file ttl = Ok (Some rs) <->
  zfile zone autosplit pton4 pton6 fs depth zone file ttl rs.
Proof. intros. now apply file_right. Qed.
Print Assumptions C54_files_are_read_as_written.

(** No file has two meanings, and with more room there is no other meaning. *)
Theorem C54_one_meaning : forall zone autosplit pton4 pton6 fs d1 d2 file ttl r1 r2,
  legal_name zone -> (forall f raw, fs f = Some raw -> all_bytes raw) ->
  zfile zone autosplit pton4 pton6 fs d1 zone file ttl r1 -> zfile zone autosplit pton4 pton6 fs d2 zone file ttl r2 -> r1 = r2.
Proof.
  intros zone autosplit p4 p6 fs d1 d2 file ttl r1 r2 L Hfs Z1 Z2.
  apply (zfile_deeper _ _ _ _ _ d1 (Nat.max d1 d2)) in Z1; [|lia]. apply (zfile_deeper _ _ _ _ _ d2 (Nat.max d1 d2)) in Z2; [|lia].
  apply file_right in Z1, Z2; auto. congruence.
Qed.
Print Assumptions C54_one_meaning.
Theorem C54_room_is_enough : forall zone autosplit pton4 pton6 fs d1 d2 file ttl rs,
  legal_name zone -> (forall f raw, fs f = Some raw -> all_bytes raw) -> (d1 <= d2)%nat ->
  zscan_rfc1035 (dname zone true) autosplit pton4 pton6 fs d1 file ttl = Ok (Some rs) ->
  zscan_rfc1035 (dname zone true) autosplit pton4 pton6 fs d2 file ttl = Ok (Some rs).
Proof. intros zone autosplit p4 p6 fs d1 d2 file ttl rs L Hfs D E. apply file_right; auto. apply file_right in E; auto. eapply zfile_deeper; eauto. Qed.
Print Assumptions C54_room_is_enough.

(** From the text to the tree that answers are taken from: when all zones'
    files have been scanned and their records loaded, each name in a zone
    exists, and holds what it holds, by what the zone's file says. *)
Theorem C54_served_data_is_the_text : forall autosplit pton4 pton6 fs depth ttl cfg pl hash files zs tree,
  (forall t a, pton4 t = Some a -> length a = 4%nat) -> (forall t a, pton6 t = Some a -> length a = 16%nat) ->
  (forall f raw, fs f = Some raw -> all_bytes raw) -> cfg_fine cfg -> (forall l, hash l < W64) ->
  Forall2 (fun zf z => fst z = fst zf /\ legal_name (fst zf) /\
    zscan_rfc1035 (dname (fst zf) true) autosplit pton4 pton6 fs depth (snd zf) ttl = Ok (Some (snd z))) files zs ->
  Forall (fun z => Forall generic_fits (snd z)) zs -> N.of_nat (length zs + length (concat (map snd zs))) < 2 ^ 62 ->
  load_zones cfg pl hash empty_tree zs = Ok (Some tree) ->
  forall zone file d, In (zone, file) files -> legal_name (d ++ zone) ->
  exists rs, zfile zone autosplit pton4 pton6 fs depth zone file ttl rs /\ In (zone, rs) zs /\
    (name_exists rs d <-> exists n, at_name (view tree) (d ++ zone) n) /\
    (forall n, at_name (view tree) (d ++ zone) n -> name_holds cfg pl zone rs d (n_zcut n) (n_rrsets n)).
Proof.
  intros autosplit p4 p6 fs depth ttl cfg pl hash files zs tree H4 H6 Hfs CF H64 F2 GF LN LZ zone file d I LD.
  assert (ZF : zones_fine zs).
  { split; [|exact LN]. clear LN LZ I. induction F2 as [|zf z files zs (E & L & Z) F2 IH]; [constructor|]. inversion GF as [|? ? G1 G2]; subst. constructor; [|now apply IH].
    rewrite E. split; [exact L|]. apply file_right in Z; auto. exact (zfile_fine (fst zf) autosplit p4 p6 H4 H6 fs depth _ _ _ _ L L Z G1). }
  assert (X : exists rs, In (zone, rs) zs /\ legal_name zone /\ zscan_rfc1035 (dname zone true) autosplit p4 p6 fs depth file ttl = Ok (Some rs)).
  { clear - F2 I. induction F2 as [|zf z files zs (E & L & Z) F2 IH]; [destruct I|]. destruct I as [->|I].
    - destruct z as [zn rs]. cbn in E, L, Z. subst zn. exists rs. split; [now left|]. auto.
    - destruct (IH I) as (rs & A & B). exists rs. split; [now right|exact B]. }
  destruct X as (rs & Iz & Lz & Z). exists rs. split; [now apply file_right in Z|]. split; [exact Iz|].
  destruct (C47_served_data_is_the_zone_files cfg pl hash zs tree CF H64 ZF LZ) as (_ & A & _). now apply A.
Qed.
Print Assumptions C54_served_data_is_the_text.

(** A file with comments, parentheses, quotes, escapes, relative names, units of
    time, and a file within it. *)
Definition nl : string := String (Ascii.ascii_of_nat 10) EmptyString.
Definition qt : string := String (Ascii.ascii_of_nat 34) EmptyString.
Definition w54_main : string :=
  "$TTL 1h ; the default" ++ nl ++
  "@ SOA n h ( 1 2h ; refresh" ++ nl ++ " 3 4 5m )" ++ nl ++
  " 900 NS n" ++ nl ++ "n 900 IN A 192.0.2.1" ++ nl ++
  "A in 60 cname W" ++ nl ++ "x 60/20 DYNA p!r" ++ nl ++
  "*.w TXT " ++ qt ++ "a;b" ++ qt ++ " c\;\100" ++ nl ++
  "$include sub d" ++ nl ++ "@ 60 MX 10 w.ex.c." ++ nl ++ "y TYPE31 \# 3 0102 fF" ++ nl ++ nl.
Definition w54_sub : string := "n A 192.0.2.9" ++ nl ++ "$ORIGIN e.@z" ++ nl ++ "@ NS n.@f" ++ nl ++ "x.o. A 192.0.2.8" ++ nl.
Definition w54_fs (f : bytes) : option bytes :=
  if bytes_eqb f (codes "/z/ex.c") then Some (codes w54_main) else if bytes_eqb f (codes "/z/sub") then Some (codes w54_sub) else None.
Definition w54_pton4 (t : bytes) : option bytes := Some [192; 0; 2; last t 0 - 48].
Definition w54_rs : list record :=
  [ASoa [] ([110] :: zn) ([104] :: zn) 3600 1 7200 3 4 300; ANs [] ([110] :: zn) 900; AA [[110]] [192; 0; 2; 1] 900 false;
   ACname [[97]] ([119] :: zn) 60; ADyna [[120]] [112; 33; 114] 60 20; ATxt [[42]; [119]] [3; 97; 59; 98; 3; 99; 59; 100] 3600;
   AA [[110]; [100]] [192; 0; 2; 9] 3600 false; ANs [[101]] ([110] :: [100] :: zn) 3600; AA [[120]; [111]] [192; 0; 2; 8] 3600 true;
   AMx [] ([119] :: zn) 60 10; AOther [[121]] 31 3600 [1; 2; 255]].
Lemma w54_bytes f raw : w54_fs f = Some raw -> all_bytes raw.
Proof.
  unfold w54_fs. assert (B : forall s, all_bytes (codes s)).
  { intros s. unfold codes. apply Forall_forall. intros c I. apply in_map_iff in I. destruct I as (a & <- & _). apply Ascii.N_ascii_bounded. }
  destruct (bytes_eqb _ _); [intros [= <-]; apply B|]. destruct (bytes_eqb _ _); [intros [= <-]; apply B|discriminate].
Qed.
Example C54_witness :
  legal_name zn /\ (forall f raw, w54_fs f = Some raw -> all_bytes raw) /\
  zscan_rfc1035 (dname zn true) true w54_pton4 (fun _ => None) w54_fs 2 (codes "/z/ex.c") 86400 = Ok (Some w54_rs) /\
  zscan_rfc1035 (dname zn true) true w54_pton4 (fun _ => None) w54_fs 1 (codes "/z/ex.c") 86400 = UB /\
  zfile zn true w54_pton4 (fun _ => None) w54_fs 2 zn (codes "/z/ex.c") 86400 w54_rs /\
  (exists tree, load_zones w47_cfg w47_pl w47_hash empty_tree [(zn, w54_rs)] = Ok (Some tree)) /\ Forall generic_fits w54_rs.
Proof.
  assert (L : legal_name zn) by (apply legalb_ok; reflexivity).
  assert (E : zscan_rfc1035 (dname zn true) true w54_pton4 (fun _ => None) w54_fs 2 (codes "/z/ex.c") 86400 = Ok (Some w54_rs)) by (vm_compute; reflexivity).
  split; [exact L|]. split; [exact w54_bytes|]. split; [exact E|]. split; [vm_compute; reflexivity|]. split; [apply file_right; [exact L|exact w54_bytes|exact E]|].
  split; [eexists; vm_compute; reflexivity|]. repeat constructor.
Qed.
