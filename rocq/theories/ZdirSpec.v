(** What a directory of zone files stands for. *)
From Coq Require Import Permutation.
From Verif Require Import Base DnameModel DnameSpec CompModel RespModel LtreeModel LtreeSpec ZscanModel ZscanSpec ZscanProofs13 ZdirModel.
Local Open Scope N_scope.

(** The zone that a file is for, by its name: ROOT_ZONE is the root; otherwise
    the name is a domain name as one writes it, with @ for /, of at most 1004
    bytes, not one of a wildcard. *)
Definition file_zone (fn : bytes) (z : name) : Prop :=
  (fn = root_zone_text /\ z = []) \/
  (fn <> root_zone_text /\ (length fn <= 1004)%nat /\ legal_name z /\ (forall r, z <> [42] :: r) /\
   exists fq, name_text (map (fun c => if c =? 64 then 47 else c) fn) z fq).

(** The files that count: regular ones whose names do not start with a dot. *)
Definition counts (e : bytes * stat_result) : bool :=
  match e with
  | (46 :: _, _) => false
  | (_, Regular) => true
  | _ => false
  end.
Definition files_of (d : directory) : list bytes :=
  match d with Entries es _ _ => map fst (filter counts es) | _ => [] end.

(** The directory, or one of the files in it that count, cannot be seen. *)
Definition unseen (d : directory) : Prop :=
  match d with
  | Missing => False
  | CannotOpen => True
  | Entries es r c => r = true \/ c = true \/ exists fn, In (fn, StatFails) es /\ hd_error fn <> Some 46
  end.

(** Two zones of which one is, or is inside, the other *)
Definition clash (z1 z2 : name) : Prop := exists p, z1 = p ++ z2 \/ z2 = p ++ z1.
Definition two_clash (R : bytes -> name -> Prop) (files : list bytes) : Prop :=
  exists f1 f2 rest z1 z2, Permutation files (f1 :: f2 :: rest) /\ R f1 z1 /\ R f2 z2 /\ clash z1 z2.

Section Says.
  Variable cfg : zcfg.
  Variable pl : plugins.
  Variable hash : list N -> N.
  Variable autosplit : bool.
  Variable pton4 : bytes -> option bytes.
  Variable pton6 : bytes -> option bytes.
  Variable fs : bytes -> option bytes.
  Variable depth : nat.
  Variable ttl : N.
  Variable dir : bytes.

  (** The file is for this zone and says these records. *)
  Definition says (fn : bytes) (x : name * list record) : Prop :=
    file_zone fn (fst x) /\ zfile (fst x) autosplit pton4 pton6 fs depth (fst x) (dir ++ fn) ttl (snd x).
  (** and they make a zone *)
  Definition sound_file (fn : bytes) : Prop :=
    exists x root, says fn x /\ load_zone cfg pl hash (fst x) (snd x) = Ok (Some root).

  (** What the files say fits in memory and into records. *)
  Definition fits (files : list bytes) : Prop :=
    forall l rest zs, Permutation files (l ++ rest) -> Forall2 says l zs ->
      Forall (fun z => Forall generic_fits (snd z)) zs /\
      N.of_nat (length zs + length (concat (map snd zs))) < 2 ^ 62.
End Says.
