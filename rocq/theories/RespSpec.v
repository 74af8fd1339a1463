(** What an answer from the zone data must contain, and how a list of records
    is read out of a message.  Uses the data types of RespModel.v (the database
    and the plugins' answers) but none of its functions. *)
From Coq Require Import Sorting.Permutation.
From Verif Require Import Base DnameSpec CompModel CompSpec RespModel.
Local Open Scope N_scope.

(** ** Records and how they are read *)
Inductive dpiece := DBytes (b : bytes) | DName (n : name).
Record rr := { rr_owner : name; rr_type : N; rr_ttl : N; rr_data : list dpiece }.

Section Read.
  (** how a name read may differ from the one meant *)
  Variable R : list (list N) -> list (list N) -> Prop.
  Variable pkt : bytes.
  Inductive data_at : nat -> list dpiece -> nat -> Prop :=
  | da_nil off : data_at off [] off
  | da_bytes off b ds e : (off + length b <= length pkt)%nat -> sub pkt off (length b) = b ->
      data_at (off + length b) ds e -> data_at off (DBytes b :: ds) e
  | da_name off n n' e1 ds e : name_at pkt off n' e1 -> R n' n -> data_at e1 ds e -> data_at off (DName n :: ds) e.
  (** owner name, type, class IN, TTL, length of the data, data *)
  Definition rr_at (off : nat) (r : rr) (e : nat) : Prop :=
    exists o e1, name_at pkt off o e1 /\ R o (rr_owner r) /\ (e1 + 10 <= e <= length pkt)%nat /\ N.of_nat (e - (e1 + 10)) < 65536 /\
      sub pkt e1 10 = be16 (rr_type r) ++ be16 1 ++ be32 (rr_ttl r) ++ be16 (N.of_nat (e - (e1 + 10))) /\
      data_at (e1 + 10) (rr_data r) e.
  Inductive rrs_at : nat -> list rr -> nat -> Prop :=
  | rs_nil off : rrs_at off [] off
  | rs_cons off r e1 rs e : rr_at off r e1 -> rrs_at e1 rs e -> rrs_at off (r :: rs) e.
End Read.

(** ** Finding a name *)
Inductive at_name (root : node) : name -> node -> Prop :=
| at_root : at_name root [] root
| at_child q n l c : at_name root q n -> In (l, c) (n_children n) -> at_name root (l :: q) c.
(** a zone cut (start of a zone or of a delegation) at or above [q] *)
Definition cut_above (root : node) (q z : name) (n : node) : Prop :=
  (exists p, q = p ++ z) /\ at_name root z n /\ n_zcut n = true.
Definition no_zone (root : node) (q : name) : Prop := forall z n, ~ cut_above root q z n.
(** the zone is the outermost cut *)
Definition zone_of (root : node) (q z : name) (zn : node) : Prop :=
  cut_above root q z zn /\ forall z' n', cut_above root q z' n' -> (length z <= length z')%nat.
(** delegated: the outermost cut below the start of the zone *)
Definition delegated (root : node) (q d : name) (dn : node) : Prop :=
  exists z zn, zone_of root q z zn /\ cut_above root q d dn /\ (length z < length d)%nat /\
    forall z' n', cut_above root q z' n' -> (length z < length z')%nat -> (length d <= length z')%nat.
(** what the zone itself has for the name: the node of that name; else what
    is at [*] directly below the closest existing ancestor *)
Definition closest (root : node) (q c : name) (cn : node) : Prop :=
  exists p l, q = p ++ l :: c /\ at_name root c cn /\ forall n, ~ at_name root (l :: c) n.
Definition in_zone (root : node) (q z : name) (zn : node) (found : option node) : Prop :=
  zone_of root q z zn /\ (forall z' n', cut_above root q z' n' -> z' = z) /\
  match found with
  | Some n => at_name root q n \/ exists c cn, closest root q c cn /\ In ([42], n) (n_children cn)
  | None => exists c cn, closest root q c cn /\ forall n, ~ In ([42], n) (n_children cn)
  end.

(** ** Contents of the sets *)
Definition mk_rr (o : name) (t ttl : N) (d : list dpiece) : rr := {| rr_owner := o; rr_type := t; rr_ttl := ttl; rr_data := d |}.
(** a dynamic TTL: the plugin's, within the limits of the zone data *)
Definition clamp (mx mn ttl : N) : N := N.min mx (N.max mn (ttl mod 268435456)).
Definition addr_rrs (o : name) (t ttl : N) (addrs : list bytes) : list rr := map (fun a => mk_rr o t ttl [DBytes a]) addrs.
Definition glue_rrs (rd : list (name * option (N * list bytes) * option (N * list bytes))) : list rr :=
  flat_map (fun x => let '(n, g4, g6) := x in
    match g4 with Some (ttl, a) => addr_rrs n 1 ttl a | None => [] end ++
    match g6 with Some (ttl, a) => addr_rrs n 28 ttl a | None => [] end) rd.
Definition hinfo_rr (o : name) : rr := mk_rr o 13 3600 [DBytes [7; 82; 70; 67; 56; 52; 56; 50; 0]].
Definition chal_rr (o : name) (c : N * bytes) : rr := mk_rr o 16 (fst c) [DBytes (snd c)].

Record rep := { r_rcode : N; r_aa : bool;
  r_chain : list rr;    (* the CNAMEs followed, in order *)
  r_an : list rr;       (* the answer proper *)
  r_chal : list rr;     (* challenge records, added as long as there is room *)
  r_ns : list rr;       (* authority section, sent if there is no answer proper *)
  r_ar : list rr }.

Section Answer.
  Variable dyn : N -> dynres.
  Variable chals : name -> list (N * bytes).
  Variable no_chain : bool.
  Variable root : node.

  Definition records_of (o : name) (r : rrset) : list rr :=
    match r with
    | RsA ttl a => addr_rrs o 1 ttl a
    | RsADyn mx mn x => addr_rrs o 1 (clamp mx mn (d_sttl (dyn x))) (d_v4 (dyn x))
    | RsAAAA ttl a => addr_rrs o 28 ttl a
    | RsAAAADyn mx mn x => addr_rrs o 28 (clamp mx mn (d_sttl (dyn x))) (d_v6 (dyn x))
    | RsNS ttl rd => map (fun x => mk_rr o 2 ttl [DName (fst (fst x))]) rd
    | RsPTR ttl rd => map (fun n => mk_rr o 12 ttl [DName n]) rd
    | RsMX ttl rd => map (fun x => mk_rr o 15 ttl [DBytes (be16 (fst x)); DName (snd x)]) rd
    | RsSRV ttl rd => map (fun x => let '(p, w, port, n) := x in mk_rr o 33 ttl [DBytes (be16 p ++ be16 w ++ be16 port); DName n]) rd
    | RsNAPTR ttl rd => map (fun x => let '(a, p, txt, n) := x in mk_rr o 35 ttl [DBytes (be16 a ++ be16 p ++ txt); DName n]) rd
    | RsTXT ttl rd => map (fun t => mk_rr o 16 ttl [DBytes t]) rd
    | RsCNAME ttl n => [mk_rr o 5 ttl [DName n]]
    | RsSOA ttl m r t => [mk_rr o 6 ttl [DName m; DName r; DBytes t]]
    | RsDYNC _ _ _ => []
    | RsOther ty ttl rd => map (fun t => mk_rr o ty ttl [DBytes t]) rd
    end.

  (** What the sets at a name stand for, and the type then looked for: a
      plugin may turn the name into an alias, and an alias answers every type. *)
  Definition effective (rs : list rrset) (qt : N) : list rrset * N :=
    match rs with
    | [RsDYNC mx mn x] =>
        match d_cname (dyn x) with
        | Some n => ([RsCNAME (clamp mx mn (d_sttl (dyn x))) n], 5)
        | None => ([RsA (clamp mx mn (d_sttl (dyn x))) (d_v4 (dyn x)); RsAAAA (clamp mx mn (d_sttl (dyn x))) (d_v6 (dyn x))], qt)
        end
    | [RsCNAME ttl n] => (rs, 5)
    | _ => (rs, qt)
    end.

  Definition acme : list N := [95; 97; 99; 109; 101; 45; 99; 104; 97; 108; 108; 101; 110; 103; 101].
  (** the name challenges are kept under, and whether they are asked for *)
  Definition chal_name (q : name) : bool * name :=
    match q with l :: r => if bytes_eqb l acme then (true, r) else (false, q) | [] => (false, q) end.

  Definition final (q : name) (qt : N) (z : name) (zn : node) (found : option node) : rep :=
    let (rs, qt) := effective (match found with Some n => n_rrsets n | None => [] end) qt in
    let sel := filter (fun r => rrset_type r =? qt) rs in
    let cs := chals (snd (chal_name q)) in
    let known := match found, cs with None, [] => false | _, _ => true end in
    {| r_rcode := if known then 0 else 3; r_aa := true; r_chain := [];
       r_an := if qt =? 255 then (if known then [hinfo_rr q] else []) else flat_map (records_of q) sel;
       r_chal := if fst (chal_name q) && (qt =? 16) then map (chal_rr q) cs else [];
       r_ns := flat_map (records_of z) (filter (fun r => rrset_type r =? 6) (n_rrsets zn));
       r_ar := if qt =? 255 then [] else flat_map (fun r => match r with RsNS _ rd => glue_rrs rd | _ => [] end) sel |}.

  (** an in-zone alias that is followed *)
  Definition followed (qt : N) (z : name) (found : option node) (ttl : N) (t : name) : Prop :=
    no_chain = false /\ qt <> 5 /\ qt <> 255 /\ (exists p, t = p ++ z) /\ exists n, found = Some n /\ n_rrsets n = [RsCNAME ttl t].

  Inductive resolves : name -> N -> rep -> Prop :=
  | res_refused q qt : no_zone root q ->
      resolves q qt {| r_rcode := 5; r_aa := false; r_chain := []; r_an := []; r_chal := []; r_ns := []; r_ar := [] |}
  | res_deleg q qt d dn ttl rd : delegated root q d dn -> In (RsNS ttl rd) (n_rrsets dn) ->
      resolves q qt {| r_rcode := 0; r_aa := false; r_chain := []; r_an := []; r_chal := [];
                       r_ns := records_of d (RsNS ttl rd); r_ar := glue_rrs rd |}
  | res_final q qt z zn found : in_zone root q z zn found -> (forall ttl t, ~ followed qt z found ttl t) ->
      resolves q qt (final q qt z zn found)
  | res_chain q qt z zn found ttl t r : in_zone root q z zn found -> followed qt z found ttl t -> resolves t qt r ->
      resolves q qt {| r_rcode := r_rcode r; r_aa := true; r_chain := mk_rr q 5 ttl [DName t] :: r_chain r;
                       r_an := r_an r; r_chal := r_chal r; r_ns := r_ns r; r_ar := r_ar r |}.
End Answer.

(** ** Sizes: an owner name takes at most two bytes (a pointer) *)
Definition piece_size (d : dpiece) : N := match d with DBytes b => N.of_nat (length b) | DName n => N.of_nat (wire_len n) end.
Definition rr_size (r : rr) : N := 12 + fold_right (fun d a => piece_size d + a) 0 (rr_data r).
Definition rrs_size (rs : list rr) : N := fold_right (fun r a => rr_size r + a) 0 rs.
Definition rep_size (r : rep) : N :=
  rrs_size (r_chain r) + N.max (rrs_size (r_an r) + rrs_size (r_chal r)) (match r_an r with [] => rrs_size (r_ns r) | _ => 0 end) + rrs_size (r_ar r).

(** ** A message that says [r]: three contiguous sections from [start] to its
    end, with the right counts.  The answer proper and the additional section
    may come in any order, the followed CNAMEs come first and in order.  Of the
    challenge records the first [k] are there; [k] is all of them unless the
    message has reached its maximum size. *)
Definition reply_ok (R : list (list N) -> list (list N) -> Prop) (max_size : N) (start : nat) (pkt : bytes)
    (an ns ar rcode : N) (aa : bool) (r : rep) : Prop :=
  exists k an' ns' ar' e1 e2,
    (k <= length (r_chal r))%nat /\ ((k < length (r_chal r))%nat -> max_size < N.of_nat (length pkt) + 56) /\
    Permutation an' (r_an r) /\ Permutation ar' (r_ar r) /\
    ns' = match r_an r, k with [], O => r_ns r | _, _ => [] end /\
    rrs_at R pkt start (r_chain r ++ an' ++ firstn k (r_chal r)) e1 /\ rrs_at R pkt e1 ns' e2 /\ rrs_at R pkt e2 ar' (length pkt) /\
    an = N.of_nat (length (r_chain r ++ an' ++ firstn k (r_chal r))) /\ ns = N.of_nat (length ns') /\ ar = N.of_nat (length ar') /\
    rcode = r_rcode r /\ aa = r_aa r.

(** ** Well-formed data (what the zone loader and the plugins provide) *)
Definition wf_addrs (len : nat) (a : list bytes) : Prop := a <> [] /\ Forall (fun x => length x = len) a.
Definition wf_glue (len : nat) (g : option (N * list bytes)) : Prop := match g with None => True | Some (_, a) => wf_addrs len a end.
Definition wf_rrset (r : rrset) : Prop :=
  match r with
  | RsA _ a => wf_addrs 4 a
  | RsAAAA _ a => wf_addrs 16 a
  | RsADyn mx mn _ | RsAAAADyn mx mn _ | RsDYNC mx mn _ => mn <= mx
  | RsNS _ rd => rd <> [] /\ (length rd <= 64)%nat /\
      Forall (fun x => let '(n, g4, g6) := x in legal_name n /\ wf_glue 4 g4 /\ wf_glue 16 g6) rd
  | RsPTR _ rd => rd <> [] /\ Forall legal_name rd
  | RsMX _ rd => rd <> [] /\ Forall (fun x => legal_name (snd x)) rd
  | RsSRV _ rd => rd <> [] /\ Forall (fun x => legal_name (snd x)) rd
  | RsNAPTR _ rd => rd <> [] /\ Forall (fun x => legal_name (snd x)) rd
  | RsTXT _ rd => rd <> []
  | RsCNAME _ n => legal_name n
  | RsSOA _ m r t => legal_name m /\ legal_name r /\ length t = 20%nat
  | RsOther ty _ rd => rd <> [] /\ ~ In ty [1; 2; 5; 6; 12; 15; 16; 28; 33; 35; 255; 65295]
  end.
Definition wf_node (n : node) : Prop :=
  NoDup (map fst (n_children n)) /\ Forall wf_rrset (n_rrsets n) /\ NoDup (map rrset_type (n_rrsets n)) /\
  (forall r, In r (n_rrsets n) -> rrset_type r = 5 \/ rrset_type r = 65295 -> n_rrsets n = [r]) /\
  (forall r, In r (n_rrsets n) -> rrset_type r = 2 \/ rrset_type r = 6 -> n_zcut n = true) /\
  (forall w, In ([42], w) (n_children n) -> n_zcut w = false).
Definition has_type (t : N) (n : node) : Prop := exists r, In r (n_rrsets n) /\ rrset_type r = t.
Definition wf_db (root : node) : Prop :=
  (forall q n, at_name root q n -> wf_node n) /\
  (forall q z zn, zone_of root q z zn -> has_type 6 zn) /\
  (forall q d dn, delegated root q d dn -> has_type 2 dn).
Definition wf_dyn (dyn : N -> dynres) (root : node) : Prop :=
  (forall x, Forall (fun a => length a = 4%nat) (d_v4 (dyn x)) /\ Forall (fun a => length a = 16%nat) (d_v6 (dyn x)) /\
     N.land (d_sttl (dyn x)) 805306368 = 0 /\ forall n, d_cname (dyn x) = Some n -> legal_name n) /\
  (* a plugin answers DYNA resources with addresses *)
  (forall q n mx mn x, at_name root q n -> In (RsADyn mx mn x) (n_rrsets n) \/ In (RsAAAADyn mx mn x) (n_rrsets n) -> d_cname (dyn x) = None).
