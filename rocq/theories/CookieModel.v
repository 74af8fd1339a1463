(** Server cookies: src/cookie.c. *)
From Verif Require Import Base.
Open Scope N_scope.

Definition CCOOKIE_LEN : nat := 8.
Definition SCOOKIE_LEN : nat := 8.
Definition KDF_KEYBYTES : nat := 32.

(** The address part of gdnsd_anysin_t. *)
Inductive addr := A4 (ip : bytes) | A6 (ip : bytes).

(** [timekeys_t], cookie.c:148-152. *)
Record timekeys := { k_previous : bytes; k_current : bytes; k_next : bytes }.

Section Crypto.
  (** libsodium: [kdf] is crypto_kdf_blake2b_derive_from_key for the primary
      key in use, by subkey number; [hash] is crypto_shorthash_siphash24, key
      first, with an 8-byte result. *)
  Variable kdf : N -> bytes.
  Variable hash : bytes -> bytes -> bytes.

  (** [rotate_timekeys], cookie.c:172-203, when time(NULL) gives [now]: the keys
      that are in use afterwards.  RCU: a reader uses all of one set of keys. *)
  Definition rotate_timekeys (now : N) : timekeys :=
    let current_ctr := now / 3600 in
    let previous_ctr := (current_ctr + (two64 - 1)) mod two64 in
    let next_ctr := (current_ctr + 1) mod two64 in
    {| k_previous := kdf previous_ctr; k_current := kdf current_ctr; k_next := kdf next_ctr |}.

  (** the buffer that is hashed, cookie.c:303-311 *)
  Definition scookie_input (client : addr) (data : bytes) : res bytes :=
    do ip <- match client with
             | A4 ip => do b <- rdn ip 0 4; wr (repeat 0 24) 0 b
             | A6 ip => do b <- rdn ip 0 16; wr (repeat 0 24) 0 b
             end;
    do cc <- rdn data 0 CCOOKIE_LEN;
    wr ip 16 cc.

  (** sodium_memcmp: 0 if equal, else -1 *)
  Definition sodium_memcmp (a b : bytes) : Z := if list_eq_dec N.eq_dec a b then 0%Z else (-1)%Z.

  (** [cookie_process], cookie.c:291-345: validity and the 16 bytes sent back. *)
  Definition cookie_process (keys : timekeys) (client : addr) (data : bytes) : res (bool * bytes) :=
    let len := length data in
    rassert (Nat.eqb len CCOOKIE_LEN || (Nat.leb (CCOOKIE_LEN + SCOOKIE_LEN) len && Nat.leb len 40))
    (do input <- scookie_input client data;
     let current := hash (k_current keys) input in
     do valid <-
       (if Nat.ltb CCOOKIE_LEN len then
          do sent <- rdn data CCOOKIE_LEN SCOOKIE_LEN;
          let c1 := sodium_memcmp (hash (k_previous keys) input) sent in
          let c2 := sodium_memcmp current sent in
          let c3 := sodium_memcmp (hash (k_next keys) input) sent in
          let inlen_check := Z.lxor (Z.of_nat len) (Z.of_nat (CCOOKIE_LEN + SCOOKIE_LEN)) in
          Ok (Z.eqb (Z.lor (Z.land (Z.land c1 c2) c3) inlen_check) 0)
        else Ok false);
     do cc <- rdn data 0 CCOOKIE_LEN;
     Ok (valid, cc ++ current)).
End Crypto.

(** ** The primary key *)
(** [safe_read_keyfile], cookie.c:212-222, on a file's contents: the read must
    give all 32 bytes. *)
Definition safe_read_keyfile (file : option bytes) : option bytes :=
  match file with
  | None => None
  | Some b => if Nat.leb KDF_KEYBYTES (length b) then Some (firstn KDF_KEYBYTES b) else None
  end.
(** [safe_write_keyfile], cookie.c:224-234: O_EXCL, so an existing file stays.
    [n]: how much the write managed. *)
Definition safe_write_keyfile (file : option bytes) (key : bytes) (n : nat) : option bytes * bool :=
  match file with
  | Some _ => (file, false)
  | None => (Some (firstn n key), Nat.eqb n KDF_KEYBYTES)
  end.
(** [cookie_config], cookie.c:249-279.  [key_file]: [Some f] if one is
    configured, [f] its contents.  [auto]: the file in the run directory.
    [None]: fatal.  Else the key, the file afterwards, and whether an error was
    logged. *)
Definition cookie_config (key_file : option (option bytes)) (auto : option bytes) (random : bytes) (n : nat) : option (bytes * option bytes * bool) :=
  match key_file with
  | Some f => match safe_read_keyfile f with Some k => Some (k, auto, false) | None => None end
  | None =>
      match safe_read_keyfile auto with
      | Some k => Some (k, auto, false)
      | None => let (auto', ok) := safe_write_keyfile auto random n in Some (random, auto', negb ok)
      end
  end.
