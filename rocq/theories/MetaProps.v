(** The theorems about metadata stores and their watchers (C46, C47). *)
From Verif Require Import MetaModel MetaSpec MetaClaims.

(** What a store holds after a call: updates replace objects unless the one
    that is there is newer, deletes remove them, and a full sync also removes
    what it does not name. *)
Theorem C46_contents : forall K S T I (o : ops K S T I) st c, lawful o -> reachable o st ->
  same (contents o (do_call o st c)) (call_effect o (contents o st) c).
Proof. intros K S T I o st c L. exact (claim_contents o L st c). Qed.
Print Assumptions C46_contents.
Example C46_contents_nonvacuous : lawful zops /\ reachable zops (zstore one_call)
  /\ contents zops (zstore one_call) 1 = Some a1
  /\ contents zops (do_call zops (zstore one_call) (Apply [Mod a2; Delete 2])) 1 = Some a2
  /\ contents zops (do_call zops (zstore one_call) (Apply [Mod a2; Delete 2])) 2 = None
  /\ contents zops (do_calls zops (zstore one_call) [Apply [Mod a2]; Full [a1; c1]]) 1 = Some a2.
Proof. split; [exact zops_lawful|]. split; [exists one_call; reflexivity|]. repeat split; vm_compute; reflexivity. Qed.

(** A client that shows the store as it was at its last look, looks again after
    any calls.  It shows the store as it now is if and only if: no key was
    deleted and created again in between; or, if there was a full sync, the
    store is not empty (or the client showed nothing before). *)
Theorem C46_client : forall K S T I (o : ops K S T I) summ st w cs w', lawful o -> client_runs o summ st w -> looked w st ->
  same (client_view o w) (seen o (shown summ) st) -> client_looks o summ (do_calls o st cs) w w' ->
  (same (client_view o w') (seen o (shown summ) (do_calls o st cs)) <-> undisturbed o (client_view o w) st cs)
  /\ looked w' (do_calls o st cs).
Proof. intros K S T I o summ st w cs w' L. exact (client_exact o L summ st w cs w'). Qed.
Print Assumptions C46_client.
Example C46_client_nonvacuous : lawful zops /\ client_runs zops (fun x => x) (zstore one_call) w1 /\ looked w1 (zstore one_call)
  /\ same (client_view zops w1) (seen zops (shown (fun x => x)) (zstore one_call))
  /\ client_looks zops (fun x => x) st2 w1 w2
  /\ same (client_view zops w2) (seen zops (shown (fun x => x)) st2)
  /\ contents zops st2 1 = Some a3 /\ contents zops st2 2 = None.
Proof.
  split; [exact zops_lawful|]. split; [exact w1_runs|]. split; [reflexivity|]. split; [exact w1_same|].
  split; [exact (zlook_looks st2 w1)|]. split; [exact w2_same|]. split; vm_compute; reflexivity.
Qed.

(** So it shows the store after every look of a history in which nothing of
    this kind happens between two looks. *)
Theorem C46_client_calm : forall K S T I (o : ops K S T I) summ st w, lawful o -> client_calm o summ st w ->
  same (client_view o w) (seen o (shown summ) st).
Proof. intros K S T I o summ st w L H. exact (proj2 (proj2 (client_calm_right o L summ st w H))). Qed.
Print Assumptions C46_client_calm.
Example C46_client_calm_nonvacuous :
  client_calm zops (fun x => x) st2 w2.
Proof.
  apply (cc_look zops (fun x => x) st1 w1 some_calls).
  - apply (cc_look zops (fun x => x) new_store new_client one_call w1); [constructor| |exact (zlook_looks (zstore one_call) new_client)].
    intros _ k. reflexivity.
  - apply (C46_client Z Z Z Z zops (fun x => x) st1 w1 some_calls w2 zops_lawful w1_runs eq_refl w1_same).
    + exact (zlook_looks st2 w1).
    + exact w2_same.
  - exact (zlook_looks st2 w1).
Qed.

(** Whatever it missed before, it shows the store after a look that follows a
    full sync, unless the store is then empty. *)
Theorem C46_client_resync : forall K S T I (o : ops K S T I) summ st w cs w', lawful o -> client_runs o summ st w ->
  updates_of cs = None -> ~ nothing (contents o (do_calls o st cs)) -> client_looks o summ (do_calls o st cs) w w' ->
  same (client_view o w') (seen o (shown summ) (do_calls o st cs)).
Proof. intros K S T I o summ st w cs w' L. exact (client_resync o L summ st w cs w'). Qed.
Print Assumptions C46_client_resync.
Example C46_client_resync_nonvacuous : exists st w cs, client_runs zops (fun x => x) st w /\ client_view zops w 1 = None
  /\ contents zops st 1 <> None /\ updates_of cs = None /\ ~ nothing (contents zops (do_calls zops st cs)).
Proof.
  exists (zstore (one_call ++ [Apply [Delete 1; Mod a2]])), (zlook (zstore (one_call ++ [Apply [Delete 1; Mod a2]])) w1), [Full [a3]].
  split; [eapply cr_look; [|apply zlook_looks]; exact (client_runs_calls zops (fun x => x) (zstore one_call) w1 [Apply [Delete 1; Mod a2]] w1_runs)|].
  split; [vm_compute; reflexivity|]. split; [vm_compute; discriminate|]. split; [reflexivity|].
  intros H. specialize (H 1). vm_compute in H. discriminate H.
Qed.

(** The same for SPUs, which are sent the specs (and metadata) only. *)
Theorem C46_spu : forall K S T I (o : ops K S T I) V f (conv : object K S T I -> V) key st w cs w', lawful o ->
  watches f = true -> fit f conv key -> spu_runs o f conv key st w -> looked w st ->
  same (spu_view o w) (seen o conv st) -> spu_looks o f conv key (do_calls o st cs) w w' ->
  (same (spu_view o w') (seen o conv (do_calls o st cs)) <-> undisturbed o (spu_view o w) st cs)
  /\ looked w' (do_calls o st cs).
Proof. intros K S T I o V f conv key st w cs w' L W F. exact (spu_exact o L f conv key W F st w cs w'). Qed.
Print Assumptions C46_spu.
Example C46_spu_nonvacuous : lawful zops /\ watches spec_meta = true /\ fit spec_meta zconv zkey
  /\ spu_runs zops spec_meta zconv zkey (zstore one_call) p1 /\ looked p1 (zstore one_call)
  /\ same (spu_view zops p1) (seen zops zconv (zstore one_call))
  /\ spu_looks zops spec_meta zconv zkey st2 p1 p2
  /\ same (spu_view zops p2) (seen zops zconv st2).
Proof.
  split; [exact zops_lawful|]. split; [reflexivity|]. split; [exact zconv_fit|]. split; [exact p1_runs|]. split; [reflexivity|].
  split; [exact p1_same|]. split; [exact (zspu_looks st2 p1)|exact p2_same].
Qed.
Theorem C46_spu_calm : forall K S T I (o : ops K S T I) V f (conv : object K S T I -> V) key st w, lawful o ->
  watches f = true -> fit f conv key -> spu_calm o f conv key st w -> same (spu_view o w) (seen o conv st).
Proof. intros K S T I o V f conv key st w L W F H. exact (proj2 (proj2 (spu_calm_right o L f conv key W F st w H))). Qed.
Print Assumptions C46_spu_calm.
Example C46_spu_calm_nonvacuous :
  spu_calm zops spec_meta zconv zkey st2 p2.
Proof.
  apply (sc_look zops spec_meta zconv zkey st1 p1 some_calls).
  - apply (sc_look zops spec_meta zconv zkey new_store new_spu one_call p1); [constructor| |exact (zspu_looks (zstore one_call) new_spu)].
    intros _ k. reflexivity.
  - apply (C46_spu Z Z Z Z zops _ spec_meta zconv zkey st1 p1 some_calls p2 zops_lawful
             eq_refl zconv_fit p1_runs eq_refl p1_same).
    + exact (zspu_looks st2 p1).
    + exact p2_same.
  - exact (zspu_looks st2 p1).
Qed.
Theorem C46_spu_resync : forall K S T I (o : ops K S T I) V f (conv : object K S T I -> V) key st w cs w', lawful o ->
  fit f conv key -> spu_runs o f conv key st w ->
  updates_of cs = None -> ~ nothing (contents o (do_calls o st cs)) -> spu_looks o f conv key (do_calls o st cs) w w' ->
  same (spu_view o w') (seen o conv (do_calls o st cs)).
Proof. intros K S T I o V f conv key st w cs w' L F. exact (spu_resync o L f conv key F st w cs w'). Qed.
Print Assumptions C46_spu_resync.
Example C46_spu_resync_nonvacuous : exists st w cs, spu_runs zops spec_meta zconv zkey st w /\ spu_view zops w 1 = None
  /\ contents zops st 1 <> None /\ updates_of cs = None /\ ~ nothing (contents zops (do_calls zops st cs)).
Proof.
  exists (zstore (one_call ++ [Apply [Delete 1; Mod a2]])), (zspu (zstore (one_call ++ [Apply [Delete 1; Mod a2]])) p1), [Full [a3]].
  split; [eapply sr_look; [|apply zspu_looks]; exact (spu_runs_calls zops spec_meta zconv zkey (zstore one_call) p1 [Apply [Delete 1; Mod a2]] p1_runs)|].
  split; [vm_compute; reflexivity|]. split; [vm_compute; discriminate|]. split; [reflexivity|].
  intros H. specialize (H 1). vm_compute in H. discriminate H.
Qed.

(** What the store reports is always enough: a watcher that removed the deletes
    before it applied the updates, and took a full sync of nothing as one, would
    show the store after every look. *)
Theorem C46_enough : forall K S T I (o : ops K S T I) V f (conv : object K S T I -> V) key shows st cs c, lawful o ->
  reachable o st -> watches f = true -> fit f conv key -> same shows (seen o conv st) ->
  shuffled (fst (look f (do_calls o st cs) (m_epoch (st_map st)))) c ->
  same (in_order o conv shows c) (seen o conv (do_calls o st cs)).
Proof. intros K S T I o V f conv key shows st cs c L. exact (claim_enough o L f conv key shows st cs c). Qed.
Print Assumptions C46_enough.
Example C46_enough_nonvacuous :
  fst (look spec_meta (do_calls zops (zstore one_call) [Apply [Delete 1; Mod a2; Delete 2]]) (m_epoch (st_map (zstore one_call))))
  = mkChanges 2 (Changes [a2] [a1; b1]).
Proof. vm_compute. reflexivity. Qed.

(** A controller that waits for the first sync panics if and only if the store
    has had no full sync. *)
Theorem C46_initial : forall K S T I (o : ops K S T I) cs, lawful o ->
  (initial_sync (do_calls o new_store cs) 0 = None <-> updates_of cs <> None).
Proof. intros K S T I o cs L. exact (claim_initial o L cs). Qed.
Print Assumptions C46_initial.
Example C46_initial_nonvacuous : initial_sync (zstore one_call) 0 = Some [a1; b1] /\ initial_sync (zstore [Apply [Mod a1]]) 0 = None.
Proof. split; vm_compute; reflexivity. Qed.

(** Finding: an object that was deleted and created again between two looks is
    removed from the client, and stays away although the store holds it. *)
Theorem C46_recreated_refuted : exists cs1 cs2 w w' k v,
  client_looks zops (fun x => x) (zstore cs1) new_client w
  /\ client_looks zops (fun x => x) (zstore (cs1 ++ cs2)) w w'
  /\ contents zops (zstore (cs1 ++ cs2)) k = Some v /\ client_view zops w' k = None
  /\ has_change (zstore (cs1 ++ cs2)) (fst w') = false.
Proof.
  exists one_call, [Apply [Delete 1]; Apply [Mod a2]], w1, (zlook (zstore (one_call ++ [Apply [Delete 1]; Apply [Mod a2]])) w1), 1, a2.
  split; [apply zlook_looks|]. split; [apply zlook_looks|]. repeat split; vm_compute; reflexivity.
Qed.
Print Assumptions C46_recreated_refuted.
Theorem C46_spu_recreated_refuted : exists cs1 cs2 w w' k v,
  spu_looks zops spec_meta zconv zkey (zstore cs1) new_spu w
  /\ spu_looks zops spec_meta zconv zkey (zstore (cs1 ++ cs2)) w w'
  /\ contents zops (zstore (cs1 ++ cs2)) k = Some v /\ spu_view zops w' k = None
  /\ has_change (zstore (cs1 ++ cs2)) (fst w') = false.
Proof.
  exists one_call, [Apply [Delete 1]; Apply [Mod a2]], p1, (zspu (zstore (one_call ++ [Apply [Delete 1]; Apply [Mod a2]])) p1), 1, a2.
  split; [apply zspu_looks|]. split; [apply zspu_looks|]. repeat split; vm_compute; reflexivity.
Qed.
Print Assumptions C46_spu_recreated_refuted.

(** Finding: when a full sync leaves the store empty, clients and SPUs keep what
    they had. *)
Theorem C46_emptied_refuted : exists cs1 cs2 w w' k,
  client_looks zops (fun x => x) (zstore cs1) new_client w
  /\ client_looks zops (fun x => x) (zstore (cs1 ++ cs2)) w w'
  /\ nothing (contents zops (zstore (cs1 ++ cs2))) /\ client_view zops w' k <> None
  /\ has_change (zstore (cs1 ++ cs2)) (fst w') = false.
Proof.
  exists one_call, [Full []], w1, (zlook (zstore (one_call ++ [Full []])) w1), 1.
  split; [apply zlook_looks|]. split; [apply zlook_looks|]. split; [intros k; vm_compute; reflexivity|].
  split; vm_compute; [discriminate|reflexivity].
Qed.
Print Assumptions C46_emptied_refuted.
Theorem C46_spu_emptied_refuted : exists cs1 cs2 w w' k,
  spu_looks zops spec_meta zconv zkey (zstore cs1) new_spu w
  /\ spu_looks zops spec_meta zconv zkey (zstore (cs1 ++ cs2)) w w'
  /\ nothing (contents zops (zstore (cs1 ++ cs2))) /\ spu_view zops w' k <> None
  /\ has_change (zstore (cs1 ++ cs2)) (fst w') = false.
Proof.
  exists one_call, [Full []], p1, (zspu (zstore (one_call ++ [Full []])) p1), 1.
  split; [apply zspu_looks|]. split; [apply zspu_looks|]. split; [intros k; vm_compute; reflexivity|].
  split; vm_compute; [discriminate|reflexivity].
Qed.
Print Assumptions C46_spu_emptied_refuted.

(** Changes that change nothing are not announced and leave the store as it is;
    anything else (and every delete) is announced to all watchers. *)
Theorem C47_notified : forall K S T I (o : ops K S T I) st us, lawful o -> reachable o st ->
  (snd (apply_changes o st us) = None <-> idle o (contents o st) us /\ forall k, ~ In (Delete k) us)
  /\ (snd (apply_changes o st us) = None -> fst (apply_changes o st us) = st)
  /\ (snd (apply_changes o st us) <> None ->
      forall A (w : Z * A), looked w st -> has_change (fst (apply_changes o st us)) (fst w) = true).
Proof. intros K S T I o st us L. exact (claim_notified o L st us). Qed.
Print Assumptions C47_notified.
Example C47_notified_nonvacuous : snd (apply_changes zops (zstore (one_call ++ [Apply [Mod a2]])) [Mod a2; Mod b1; Mod a1]) = None
  /\ snd (apply_changes zops (zstore one_call) [Mod a2; Mod a1]) <> None.
Proof. split; vm_compute; [reflexivity|discriminate]. Qed.

(** Without a full sync since its last look, a watcher with filter [f] is given
    as updates exactly the objects of which a watched part was changed since
    (or which were created since), and as deletes exactly the objects that were
    deleted since. *)
Theorem C47_reported : forall K S T I (o : ops K S T I) f st cs us, lawful o -> reachable o st ->
  watches f = true -> updates_of cs = Some us ->
  exists ups dels, c_delta (fst (look f (do_calls o st cs) (m_epoch (st_map st)))) = Changes ups dels
    /\ NoDup (map o_key ups)
    /\ (forall v, In v ups <-> contents o (do_calls o st cs) (o_key v) = Some v /\ altered o f (contents o st) us (o_key v))
    /\ (forall v, In v dels <-> deleted o (contents o st) us (o_key v) v).
Proof. intros K S T I o f st cs us L. exact (claim_reported o L f st cs us). Qed.
Print Assumptions C47_reported.
Example C47_reported_nonvacuous : updates_of some_calls = Some [Mod a2; Delete 2; Mod c1; Mod a1; Mod a3]
  /\ c_delta (fst (look full st2 1)) = Changes [a3; c1] [b1]
  /\ c_delta (fst (look (mkFlag false true false) (do_calls zops (zstore one_call) [Apply [Mod a2]]) 1)) = Changes [] []
  /\ c_delta (fst (look (mkFlag true false false) (do_calls zops (zstore one_call) [Apply [Mod a2]]) 1)) = Changes [a2] [].
Proof. repeat split; vm_compute; reflexivity. Qed.

(** After a full sync, every watcher is given every object. *)
Theorem C47_full : forall K S T I (o : ops K S T I) f st cs, lawful o -> reachable o st -> updates_of cs = None ->
  exists all, c_delta (fst (look f (do_calls o st cs) (m_epoch (st_map st)))) = SyncAll all
    /\ NoDup (map o_key all) /\ forall v, In v all <-> contents o (do_calls o st cs) (o_key v) = Some v.
Proof. intros K S T I o f st cs L. exact (claim_full o L f st cs). Qed.
Print Assumptions C47_full.
Example C47_full_nonvacuous : reachable zops (zstore one_call) /\ @updates_of Z Z Z Z [Full [a2]; Apply [Mod b1]] = None.
Proof. split; [exists one_call; reflexivity|reflexivity]. Qed.

(** Finding: deleting what is not there is announced, although nothing changes. *)
Theorem C47_delete_refuted : exists cs us, idle zops (contents zops (zstore cs)) us
  /\ snd (apply_changes zops (zstore cs) us) <> None
  /\ has_change (fst (apply_changes zops (zstore cs) us)) (m_epoch (st_map (zstore cs))) = true.
Proof.
  exists one_call, [Delete 3]. split; [|split; vm_compute; [discriminate|reflexivity]].
  intros us1 us2 E k. destruct us1 as [|u us1]; [reflexivity|]. injection E as <- E. destruct us1; [|discriminate].
  change (effects zops (contents zops (zstore one_call)) [Delete 3] k) with (if k =? 3 then None else contents zops (zstore one_call) k).
  destruct (k =? 3) eqn:X; [apply Z.eqb_eq in X; subst; reflexivity|reflexivity].
Qed.
Print Assumptions C47_delete_refuted.
(** Finding: a full sync with what is already there is announced, and every
    object is given again to the watchers of every part. *)
Theorem C47_full_refuted : exists cs vs, same (contents zops (do_call zops (zstore cs) (Full vs))) (contents zops (zstore cs))
  /\ has_change (do_call zops (zstore cs) (Full vs)) (m_epoch (st_map (zstore cs))) = true
  /\ c_delta (fst (look (mkFlag true false false) (do_call zops (zstore cs) (Full vs)) (m_epoch (st_map (zstore cs))))) = SyncAll vs
  /\ vs <> [].
Proof.
  exists one_call, [a1; b1]. split; [intros k; reflexivity|]. split; [vm_compute; reflexivity|]. split; [vm_compute; reflexivity|discriminate].
Qed.
Print Assumptions C47_full_refuted.
