(** C59: the tables behind the configuration data *)
From Coq Require Import Permutation Lia String.
From Verif Require Import Base CompModel OptModel VhashModel VhashSpec VhashProofs VhashProofs2.
Local Open Scope list_scope.
Local Open Scope N_scope.
Local Notation length := List.length.

(** Whatever the hash function gives, and whatever is done in which order: a table answers as the list of
    its entries in the order they were added (or sorted into last), and nothing is read or written outside it *)
Theorem C59_table : forall (V : Type) (mm3 : bytes -> N) (ops : list (op (V := V))),
  N.of_nat (length ops) < 2 ^ 31 -> Forall sorts ops -> run mm3 ops hash_new = Ok (srun ops []).
Proof. intros V mm3 ops L F. apply (run_ok mm3 ops hash_new [] [] (wf_new mm3)); assumption. Qed.

(** A copy has the same keys and values in the same order and no marks, all the way down *)
Theorem C59_copy : forall mm3 ig d, made mm3 d -> exists d', val_clone mm3 ig d = Ok d' /\ tree_of d' = copy ig (tree_of d).
Proof. exact copy_made. Qed.

(** One key is inherited with a copy of its value, if it is there and not there already *)
Theorem C59_inherit : forall mm3 src dest k m ts td, made mm3 (DH src) -> made mm3 (DH dest) -> room (DH dest) ->
  tree_of (DH src) = TH ts -> tree_of (DH dest) = TH td ->
  exists src' dest', inherit mm3 src dest k m = Ok (src', dest') /\ tree_of (DH src') = TH (if m then mark k ts else ts) /\
    tree_of (DH dest') = TH (match value k ts with Some v => inherited k v td | None => td end).
Proof. exact inherit_made. Qed.

(** All keys are inherited that are not there already *)
Theorem C59_inherit_all : forall mm3 src dest ig ts td, made mm3 (DH src) -> made mm3 (DH dest) -> child_count src + child_count dest < 2 ^ 31 ->
  tree_of (DH src) = TH ts -> tree_of (DH dest) = TH td -> (forall k, In k (keys ts) -> ~ In 0 k) ->
  exists dest', inherit_all mm3 src dest ig = Ok dest' /\ tree_of (DH dest') = TH (inherited_all ig ts td).
Proof. exact inherit_all_made. Qed.

(** All other entries that are hashes inherit the key *)
Theorem C59_bequeath : forall mm3 src k m ig ts, made mm3 (DH src) -> Forall (fun e => room (hval e)) (heap src) -> tree_of (DH src) = TH ts ->
  exists b src', bequeath_all mm3 src k m ig = Ok (b, src') /\
    match value k ts with
    | None => b = false /\ src' = src
    | Some v => b = true /\ ((forall t, v <> TH t) \/ m && ig = true -> tree_of (DH src') = TH (bequeathed k v ig (if m then mark k ts else ts)))
    end.
Proof. exact bequeath_made. Qed.

(** ** Where that fails *)

Definition mm0 (_ : bytes) : N := 0.
Definition put (l : list (bytes * vdata)) : vhash vdata :=
  fold_left (fun h kv => match hash_add_val mm0 (fst kv) (snd kv) h with Ok (_, h') => h' | UB => h end) l hash_new.

Lemma put_made l : (forall kv, In kv l -> made mm0 (snd kv)) -> N.of_nat (length l) < 2 ^ 31 - 1 -> made mm0 (DH (put l)).
Proof.
  unfold put. enough (H : forall l h ord es, made mm0 (DH h) -> wf mm0 h ord es -> (forall kv, In kv l -> made mm0 (snd kv)) ->
    child_count h + N.of_nat (length l) < 2 ^ 31 - 1 ->
    made mm0 (DH (fold_left (fun h kv => match hash_add_val mm0 (fst kv) (snd kv) h with Ok (_, h') => h' | UB => h end) l h))).
  { intros M L. apply (H l hash_new [] []); [constructor|apply wf_new|assumption|exact L]. }
  clear l. induction l as [|[k v] l IH]; intros h ord es M W H L; [exact M|]. cbn [fold_left fst snd length] in *.
  destruct (step_ok mm0 h ord es (Add k v) W) as (h' & o' & e' & E & W' & C & _); [lia|exact I|].
  pose proof E as E0. cbn [step] in E0. destruct (hash_add_val mm0 k v h) as [[b h2]|]; [|discriminate]. cbn [rbind] in E0. injection E0 as _ E1. subst h2.
  apply (IH h' o' e'); [|exact W'|intros; apply H; now right|lia].
  eapply (M_op mm0 h (Add k v)); [exact M|unfold room; lia|exact I| |exact E]. intros k0 v0 [= _ <-]. apply (H (k, v)). now left.
Qed.

Ltac mk := lazymatch goal with
  | |- made _ (DH (put _)) => apply put_made; [intros kv K; cbn [In] in K; repeat destruct K as [<-|K]; [..|destruct K]; cbn [snd]; mk|reflexivity]
  | |- made _ (DS _ _) => constructor
  end.

(** A value that is itself a hash is handed down to itself *)
Definition fam : vhash vdata := put [(txt "opts", DH (put [(txt "ttl", DS [] (txt "5"))])); (txt "web", DH (put [(txt "ip", DS [] (txt "x"))]))].
Theorem C59_only_to_others_refuted : exists mm3 src k ts v, made mm3 (DH src) /\ Forall (fun e => room (hval e)) (heap src) /\
  tree_of (DH src) = TH ts /\ value k ts = Some v /\
  forall src', bequeath_all mm3 src k true false = Ok (true, src') -> tree_of (DH src') <> TH (bequeathed k v false (mark k ts)).
Proof.
  exists mm0, fam, (txt "opts"). eexists _, _. split; [unfold fam; mk|]. split; [repeat constructor|]. split; [vm_compute; reflexivity|]. split; [vm_compute; reflexivity|].
  intros src'. vm_compute. intros [= <-]. discriminate.
Qed.

(** A key with a null byte is cut short when all keys are inherited *)
Theorem C59_all_inherited_refuted : exists mm3 src dest ts td, made mm3 (DH src) /\ made mm3 (DH dest) /\ child_count src + child_count dest < 2 ^ 31 /\
  tree_of (DH src) = TH ts /\ tree_of (DH dest) = TH td /\
  forall dest', inherit_all mm3 src dest false = Ok dest' -> tree_of (DH dest') <> TH (inherited_all false ts td).
Proof.
  exists mm0, (put [([97; 0; 98], DS [] (txt "5"))]), hash_new. eexists _, _. split; [mk|]. split; [constructor|]. split; [reflexivity|].
  split; [vm_compute; reflexivity|]. split; [vm_compute; reflexivity|]. intros d. vm_compute. intros [= <-]. discriminate.
Qed.

Print Assumptions C59_table.
Print Assumptions C59_copy.
Print Assumptions C59_inherit.
Print Assumptions C59_inherit_all.
Print Assumptions C59_bequeath.
Print Assumptions C59_only_to_others_refuted.
Print Assumptions C59_all_inherited_refuted.

(** Five entries that all fall into one slot, found again, sorted, and handed down *)
Definition turned (ks : list bytes) : list nat := rev (seq 0 (length ks)).
Lemma turned_perm : forall ks, Permutation (turned ks) (seq 0 (length ks)).
Proof. intros ks. symmetry. apply Permutation_rev. Qed.
Definition some_ops : list (op (V := N)) :=
  [Add (txt "a") 1; Add (txt "b") 2; Add (txt "c") 3; Add (txt "a") 9; Get (txt "b") true; Sort turned; Add (txt "d") 4; KeyAt 0; DataAt 3; DataAt 4; IndexOf (txt "a");
   Get (txt "a") false; Len; Each true (fun _ => true); Each false (fun l => (N.of_nat (length l)) <? 2)].
Example C59_witness :
  Forall sorts some_ops /\
  run mm0 some_ops hash_new =
    Ok [Added true; Added true; Added true; Added false; Value (Some 2); Done; Added true; Key (Some (txt "c")); Value (Some 4); Value None; Index (Some 2);
        Value (Some 1); Count 4; Seen [(txt "c", 3); (txt "a", 1); (txt "d", 4)]; Seen [(txt "c", 3); (txt "b", 2)]] /\
  made mm0 (DH fam) /\
  (exists d, val_clone mm0 false (DH fam) = Ok d /\
     tree_of d = TH [(txt "opts", false, TH [(txt "ttl", false, TS [] (txt "5"))]); (txt "web", false, TH [(txt "ip", false, TS [] (txt "x"))])]) /\
  (exists s, bequeath_all mm0 fam (txt "opts") true true = Ok (true, s) /\
     tree_of (DH s) = TH [(txt "opts", true, TH [(txt "ttl", false, TS [] (txt "5"))]);
                          (txt "web", false, TH [(txt "ip", false, TS [] (txt "x")); (txt "opts", false, TH [(txt "ttl", false, TS [] (txt "5"))])])]).
Proof.
  split; [repeat constructor; exact turned_perm|]. split; [vm_compute; reflexivity|]. split; [unfold fam; mk|].
  split; eexists; (split; vm_compute; reflexivity).
Qed.
