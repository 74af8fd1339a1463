(** C58: the global options are read as documented, and nothing else is accepted. *)
From Coq Require Import String Ascii Lia.
From Verif Require Import Base CompModel VscfModel OptModel OptSpec CfgModel CfgSpec CfgProofs CfgProofs2 CfgProofs3.
Local Open Scope N_scope.
Local Open Scope list_scope.
Local Notation length := List.length.

(** Whatever the configuration file holds: the daemon does not go wrong over it, it starts with
    exactly the files that keep the rules of CfgSpec.v, and the options mean what is said there.
    [gai] is any way to read numeric addresses and ports. *)
Theorem C58_options (gai : bytes -> option bytes -> option sockaddr) root force :
  (forall h p a, gai h p = Some a -> port a < 65536) ->
  (forall raw s, root <> Some (VS raw s)) -> few_addresses root ->
  load gai root force <> UB /\ forall s c, load gai root force = Ok (Some (s, c)) <-> config gai root force s c.
Proof. intros P. exact (load_ok gai P root force). Qed.
Print Assumptions C58_options.

(** Every address has as many threads of each kind as its options say, and there are no others *)
Theorem C58_threads (gai : bytes -> option bytes -> option sockaddr) root force s c :
  (forall h p a, gai h p = Some a -> port a < 65536) ->
  (forall raw s, root <> Some (VS raw s)) -> few_addresses root ->
  load gai root force = Ok (Some (s, c)) -> workers (dns_addrs s) (dns_threads s).
Proof. intros P NS FEW L. apply (load_ok gai P root force NS FEW) in L. exact (config_workers gai root force s c L). Qed.
Print Assumptions C58_threads.

(** A text names one host and one port *)
Theorem C58_names_unique t h p h' p' : names t h p -> names t h' p' -> h = h' /\ p = p'.
Proof. intros A B. apply names_split in A, B. split; congruence. Qed.
Print Assumptions C58_names_unique.

(** ** A case *)

(** Any text without a colon is a host; the port is a decimal number *)
Definition demo (h : bytes) (p : option bytes) : option sockaddr :=
  match p with
  | None => Some (Sockaddr (existsb (N.eqb 58) h) h 0)
  | Some q => match digits_in 10 0 q with
              | (n, []) => if n <? 65536 then Some (Sockaddr (existsb (N.eqb 58) h) h n) else None
              | _ => None
              end
  end.

Lemma demo_port h p a : demo h p = Some a -> port a < 65536.
Proof.
  unfold demo. destruct p as [q|]; [|intros [= <-]; reflexivity].
  destruct (digits_in 10 0 q) as [n [|]]; [|discriminate].
  destruct (N.ltb_spec n 65536); [|discriminate]. now intros [= <-].
Qed.

Local Definition str (s : string) : vnode := VS (txt s) (txt s).
Local Definition file (os : list (bytes * vnode)) : option vnode := Some (VH [(txt "options", VH os)]).

Local Definition big : option vnode :=
  file [(txt "listen", VH [(txt "192.0.2.1", VH [(txt "udp_threads", str "3")]);
                           (txt "[2001:db8::1]:5353", VH [(txt "tcp_proxy", str "true"); (txt "tcp_clients_per_thread", str "0x20")])]);
        (txt "tcp_control", VA [str "127.0.0.1:885"]);
        (txt "tcp_threads", str "1"); (txt "nsid", str "C0ffee"); (txt "max_ttl", str "7200"); (txt "username", str "x")].

Lemma few_lists l : (forall k v, In (k, v) l -> N.of_nat (entries v) < 2 ^ 20) -> few_addresses (file l).
Proof.
  intros H l' v k O K G. inversion O as [|? ON G'|? o ON G']; subst.
  - exfalso. apply G'. now left.
  - destruct G' as (l1 & l2 & E & _). destruct l1 as [|x [|? ?]]; [|discriminate|discriminate]. injection E as <- _.
    destruct G as (m1 & m2 & -> & _). apply (H k v). apply in_or_app. right. now left.
Qed.

Example C58_witness :
  (forall h p a, demo h p = Some a -> port a < 65536) /\ few_addresses big /\ (forall raw s, big <> Some (VS raw s)) /\
  exists s c, load demo big false = Ok (Some (s, c)) /\ config demo big false s c /\
    map (fun a => port (addr a)) (dns_addrs s) = [53; 5353] /\
    dns_threads s = [(0%nat, true); (0%nat, true); (0%nat, true); (0%nat, false); (1%nat, false)] /\
    map (fun a => port (caddr a)) (ctl_addrs s) = [885] /\ fd_estimate s = 318 /\
    nsid c = Some [192; 255; 238] /\ max_ttl c = 7200 /\ min_ttl c = 5.
Proof.
  assert (F : few_addresses big).
  { apply few_lists. intros k v H. repeat (destruct H as [[= <- <-]|H]; [reflexivity|]). destruct H. }
  assert (NS : forall raw s, big <> Some (VS raw s)) by discriminate.
  split; [exact demo_port|]. split; [exact F|]. split; [exact NS|].
  destruct (load_ok demo demo_port big false NS F) as [_ I].
  destruct (load demo big false) as [[[s c]|]|] eqn:E; [|vm_compute in E; discriminate|vm_compute in E; discriminate].
  exists s, c. split; [reflexivity|]. split; [now apply I|].
  vm_compute in E. injection E as <- <-. vm_compute. repeat split; reflexivity.
Qed.

(** ** What the documentation says and is not so *)

(** tcp_proxy "cannot use port number 53" *)
Theorem C58_proxy_not_on_port_53_refuted : exists root s c a,
  load demo root false = Ok (Some (s, c)) /\ In a (dns_addrs s) /\ tcp_proxy (opts a) = true /\ port (addr a) = 53.
Proof.
  eexists (file [(txt "listen", VH [(txt "127.0.0.1", VH [(txt "tcp_proxy", str "true")])])]), _, _, _.
  split; [vm_compute; reflexivity|]. split; [left; reflexivity|]. split; reflexivity.
Qed.
Print Assumptions C58_proxy_not_on_port_53_refuted.

(** And it can use the others *)
Theorem C58_proxy_on_other_ports_refuted :
  (forall force, load demo (file [(txt "listen", VH [(txt "127.0.0.1:13568", VH [(txt "tcp_proxy", str "true")])])]) force = Ok None) /\
  (exists sc, load demo (file [(txt "listen", VH [(txt "127.0.0.1:13569", VH [(txt "tcp_proxy", str "true")])])]) false = Ok (Some sc)).
Proof. split; [destruct force; vm_compute; reflexivity|]. eexists. vm_compute. reflexivity. Qed.
Print Assumptions C58_proxy_on_other_ports_refuted.

(** The default of chaos_response is "gdnsd" *)
Theorem C58_chaos_default_refuted : exists s c,
  load demo None false = Ok (Some (s, c)) /\ chaos c <> chaos_record (txt "gdnsd").
Proof. eexists _, _. split; [vm_compute; reflexivity|]. vm_compute. discriminate. Qed.
Print Assumptions C58_chaos_default_refuted.

(** An address that is not written as documented is refused *)
Theorem C58_odd_address_refused_refuted : exists s c,
  load demo (file [(txt "listen", str "[::1]5353")]) false = Ok (Some (s, c)) /\
  map addr (dns_addrs s) = [Sockaddr true (txt "::1") 53].
Proof. eexists _, _. split; vm_compute; reflexivity. Qed.
Print Assumptions C58_odd_address_refused_refuted.

(** A negative number is refused; a number is read as decimal *)
Theorem C58_odd_numbers_refuted : exists s c,
  load demo (file [(txt "zones_rfc1035_threads", str "-18446744073709551612"); (txt "max_ttl", str "010000")]) false = Ok (Some (s, c)) /\
  zones_rfc1035_threads c = 4 /\ max_ttl c = 4096.
Proof. eexists _, _. split; [vm_compute; reflexivity|]. split; reflexivity. Qed.
Print Assumptions C58_odd_numbers_refuted.
