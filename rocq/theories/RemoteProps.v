(** C96, C97: a remote cluster follows its home. *)
Require Import List. Import ListNotations.
From Verif Require Import Base RemoteModel RemoteSpec RemoteProofs RemoteClaims.

(** * C96: the mirrors of a remote become, and stay, those its home has for it. *)

(** A message of the home has exactly its topics for this remote. *)
Theorem C96_sent : forall s ok s' c, home_ok (y_home s) -> y_conn s = Some c -> c_served c = true -> known s (c_reg c) ->
  step s (Send ok) = Some s' ->
  exists c' m, y_conn s' = Some c' /\ c_queue c' = c_queue c ++ [m]
    /\ forall w, In w m <-> told (y_home s) (g_remote (c_reg c)) (w_key w) w.
Proof. exact sent. Qed.
Print Assumptions C96_sent.
Example C96_sent_example : exists s s' c, home_ok (y_home s) /\ y_conn s = Some c /\ c_served c = true /\ known s (c_reg c)
  /\ step s (Send true) = Some s' /\ exists w, told (y_home s) (g_remote (c_reg c)) (w_key w) w.
Proof.
  exists s1, (after s1 [Send true]), (mkConn g0 true []). split; [exact h0_ok|]. split; [vm_compute; reflexivity|]. split; [reflexivity|].
  split; [split; reflexivity|]. split; [vm_compute; reflexivity|]. exists (mkWrapper [10] (t_spec (home_topic e0)) sp6). exact told_w0.
Qed.

(** The home of a remote is the first of its mirrors that is one. *)
Theorem C96_home : forall r,
  (forall g, home_of r = Some g <-> exists a k b, r_mirrors r = a ++ (k, MHome g) :: b /\ forall j x, ~ In (j, MHome x) a)
  /\ (home_of r = None <-> forall j x, ~ In (j, MHome x) (r_mirrors r)).
Proof. exact home_found. Qed.
Print Assumptions C96_home.
Example C96_home_example : home_of (mkRemote [] [] [([5], MRemote [5]); ([6], MHome g0)]) = Some g0.
Proof. reflexivity. Qed.

(** While users change nothing, whatever connections are lost, store operations fail
    and messages are repeated: when more messages have been handled than were
    under way, the remote has exactly the mirrors the home has for it. *)
Theorem C96_converges : forall s g l s', paired s g -> Forall calm l -> run s l = Some s' ->
  y_done s + pending s < y_done s' -> in_sync (y_home s') g (y_remote s').
Proof. exact converges. Qed.
Print Assumptions C96_converges.
Example C96_converges_example : paired s0 g0 /\ Forall calm well /\ run s0 well = Some s1 /\ y_done s0 + pending s0 < y_done s1
  /\ get [10] (r_topics (y_remote s1)) <> None.
Proof.
  split; [exact paired0|]. split; [exact well_calm|]. split; [exact run_well|]. split; [vm_compute; reflexivity|]. vm_compute. discriminate.
Qed.

(** From every state that comes up, such a state can be reached without users:
    when the home knows the remote, and the connection is served or there is none. *)
Theorem C96_reaches : forall s g, reached s -> paired s g -> known s g -> (forall c, y_conn s = Some c -> c_served c = true) ->
  exists l s', Forall calm_uncut l /\ run s l = Some s' /\ in_sync (y_home s') g (y_remote s').
Proof. exact reaches_uncut. Qed.
Print Assumptions C96_reaches.
Example C96_reaches_example : reached s0 /\ paired s0 g0 /\ known s0 g0 /\ ~ in_sync (y_home s0) g0 (y_remote s0).
Proof.
  split; [apply (reach_after []); reflexivity|]. split; [exact paired0|]. split; [exact known0|].
  intros [Y _]. destruct (Y _ _ _ _ told_w0 eq_refl) as (t & G & _). discriminate G.
Qed.

(** With any connection it can be reached too, if the connection may be lost. *)
Theorem C96_reconnects : forall s g, reached s -> home_ok (y_home s) -> remote_ok (y_remote s) -> home_of (y_remote s) = Some g -> known s g ->
  exists l s', Forall calm l /\ run s l = Some s' /\ in_sync (y_home s') g (y_remote s').
Proof. exact reaches. Qed.
Print Assumptions C96_reconnects.
Example C96_reconnects_example : exists s g, reached s /\ home_ok (y_home s) /\ remote_ok (y_remote s) /\ home_of (y_remote s) = Some g /\ known s g
  /\ exists c, y_conn s = Some c /\ c_served c = false.
Proof.
  exists s_early, g0. split; [exists (mkSys h_gone r0 None None 0), [Connect (Some true); HomeDoes h0]; repeat split|].
  split; [exact h0_ok|]. split; [constructor|]. split; [reflexivity|]. split; [split; reflexivity|]. exists (mkConn g0 false []). split; reflexivity.
Qed.

(** In sync, it stays so, and no topic or partition of the remote is touched. *)
Theorem C96_stays : forall s g l s', paired s g -> in_sync (y_home s) g (y_remote s) -> pending s = 0 -> Forall calm l -> run s l = Some s' ->
  in_sync (y_home s') g (y_remote s') /\ forall k, kept k (y_remote s) (y_remote s').
Proof. exact stays. Qed.
Print Assumptions C96_stays.
Example C96_stays_example : paired s1 g0 /\ in_sync (y_home s1) g0 (y_remote s1) /\ pending s1 = 0 /\ Forall calm handled
  /\ exists s', run s1 handled = Some s' /\ r_parts (y_remote s') <> [].
Proof.
  split; [exact (paired_run s0 g0 well s1 paired0 well_calm run_well)|]. split; [exact well_sync|]. split; [vm_compute; reflexivity|].
  split; [repeat constructor|]. exists (after s1 handled). split; [vm_compute; reflexivity|]. vm_compute. discriminate.
Qed.

(** A remote is served when the home has it registered under its name and it is
    not found to be unauthorized. *)
Theorem C96_served : forall s a s', step s (Connect a) = Some s' -> exists g b,
  home_of (y_remote s) = Some g /\ y_conn s' = Some (mkConn g b [])
  /\ (b = true <-> get (g_remote g) (h_mirrors (y_home s)) = Some (MRemote (g_remote g)) /\ a <> Some false).
Proof. exact connect_served. Qed.
Print Assumptions C96_served.
Example C96_served_example : exists s', step s0 (Connect (Some false)) = Some s' /\ y_conn s' = Some (mkConn g0 false []).
Proof. eexists. split; reflexivity. Qed.

(** On a connection that is not served nothing more is sent. *)
Theorem C96_refused : forall s c l s', y_conn s = Some c -> c_served c = false -> Forall uncut l -> run s l = Some s' ->
  exists p, c_queue c = p ++ queue s'.
Proof. exact not_served. Qed.
Print Assumptions C96_refused.
Example C96_refused_example : exists c, y_conn s_early = Some c /\ c_served c = false /\ Forall uncut [HomeDoes h_more; HomeDoes h0]
  /\ exists s', run s_early [HomeDoes h_more; HomeDoes h0] = Some s'.
Proof. exists (mkConn g0 false []). split; [reflexivity|]. split; [reflexivity|]. split; [repeat constructor|]. eexists. reflexivity. Qed.

(** But a remote that is served no more is not told, and its connection is not
    closed: unregistered and registered again, it does not follow its home any
    more, unless the connection happens to be lost. *)
Theorem C96_stuck_refuted : exists s g, reached s /\ paired s g /\ known s g /\ y_conn s <> None
  /\ forall l s', Forall calm_uncut l -> run s l = Some s' -> ~ in_sync (y_home s') g (y_remote s').
Proof. exact stuck. Qed.
Print Assumptions C96_stuck_refuted.

(** The same for a remote that connects before it is registered. *)
Theorem C96_early_refuted : exists s g, reached s /\ paired s g /\ known s g /\ y_conn s <> None
  /\ forall l s', Forall calm_uncut l -> run s l = Some s' -> r_topics (y_remote s') = [].
Proof. exact early. Qed.
Print Assumptions C96_early_refuted.

(** * C97: what following its home does to the topics of a remote. *)

(** A topic that is no mirror of the home, and is not named by it, is left alone;
    and no topic appears that the home does not name. *)
Theorem C97_untouched : forall s g k l s', paired s g -> (forall w, ~ told (y_home s) (g_remote g) k w) -> ~ named s k ->
  (forall t, get k (r_topics (y_remote s)) = Some t -> ~ mirror_of (g_id g) t) -> Forall calm l -> run s l = Some s' ->
  kept k (y_remote s) (y_remote s').
Proof. exact untouched. Qed.
Print Assumptions C97_untouched.
Example C97_untouched_example : exists s s' t, paired s g0 /\ (forall w, ~ told (y_home s) (g_remote g0) [10] w) /\ ~ named s [10]
  /\ get [10] (r_topics (y_remote s)) = Some t /\ ~ mirror_of (g_id g0) t /\ run s [Connect None; Send true; Take; Work Done] = Some s'.
Proof.
  exists (mkSys h_none r_own None None 0), (after (mkSys h_none r_own None None 0) [Connect None; Send true; Take; Work Done]), own.
  split; [split; [split; [constructor|apply two_ids]|]; split; [repeat constructor; intros []|]; split; [reflexivity|discriminate]|].
  split; [intros w (t & ? & ? & ? & ? & I & _); destruct I|].
  split; [intros [(m & w & I & _)|(g & l & t & E & _)]; [destruct I|discriminate E]|].
  split; [reflexivity|]. split; [intros (? & ? & [=])|]. vm_compute. reflexivity.
Qed.

(** A topic that is new at the remote has the settings of the home's, and its
    partition is linked to the SPU that has the home's. *)
Theorem C97_new : forall id w r parts source a ids b, sp_replicas (w_spec w) = RHome parts source -> nothing_at r (w_key w) ->
  exists r', sync_topic id w r = Some r' /\
    let r'' := reconcile (w_key w) b (reconcile (w_key w) ((0, ids) :: a) r') in
    (exists t, get (w_key w) (r_topics r'') = Some t /\ from_ (w_spu w) id source t
       /\ sp_settings (t_spec t) = sp_settings (w_spec w) /\ t_ready t = true)
    /\ In ((w_key w, 0), Some (mkLink (w_spu w) id source)) (r_parts r'')
    /\ (forall x, In ((w_key w, 0), x) (r_parts r'') -> x = Some (mkLink (w_spu w) id source) \/ In 0 (map fst a)).
Proof. exact new_topic. Qed.
Print Assumptions C97_new.
Example C97_new_example : exists w, told h0 [1] [10] w /\ sp_replicas (w_spec w) = RHome [[7]; [1]] false /\ nothing_at r0 (w_key w).
Proof. eexists. split; [exact told_w0|]. split; [reflexivity|]. split; [reflexivity|]. intros i x []. Qed.

(** A topic with the name that exists already becomes a mirror of the home's; its
    partitions, where they are placed and its other topics stay, and nothing is
    changed if it is one already. *)
Theorem C97_existing : forall id w r t parts source, sp_replicas (w_spec w) = RHome parts source -> get (w_key w) (r_topics r) = Some t ->
  exists r' t', sync_topic id w r = Some r' /\ get (w_key w) (r_topics r') = Some t' /\ from_ (w_spu w) id source t'
    /\ t_ready t' = t_ready t /\ t_map t' = t_map t /\ t_links t' = t_links t /\ sp_system (t_spec t') = sp_system (t_spec t)
    /\ r_parts r' = r_parts r /\ (forall j, j <> w_key w -> get j (r_topics r') = get j (r_topics r))
    /\ (from_ (w_spu w) id source t -> r' = r).
Proof. exact existing. Qed.
Print Assumptions C97_existing.
Example C97_existing_example : exists w t, told h0 [1] [10] w /\ sp_replicas (w_spec w) = RHome [[7]; [1]] false /\ get (w_key w) (r_topics r_own) = Some t.
Proof. eexists. eexists. split; [exact told_w0|]. split; reflexivity. Qed.

(** A topic of the remote's own is taken over by one of the home's with the same
    name, and deleted with its partitions when the home deletes it. *)
Theorem C97_taken_over_refuted : exists s l s' k t p,
  get k (r_topics (y_remote s)) = Some t /\ (forall id, ~ mirror_of id t) /\ r_parts (y_remote s) = [p] /\ fst (fst p) = k
  /\ y_conn s = None /\ y_work s = None /\ Forall (fun m => forall r, m <> RemoteDoes r) l /\ run s l = Some s'
  /\ get k (r_topics (y_remote s')) = None /\ r_parts (y_remote s') = [].
Proof. exact taken_over. Qed.
Print Assumptions C97_taken_over_refuted.

(** A partition keeps its link when the home's SPU is found at another address. *)
Theorem C97_moved_refuted : exists s g k w x, reached s /\ paired s g /\ in_sync (y_home s) g (y_remote s) /\ told (y_home s) (g_remote g) k w
  /\ s_addr (l_spu x) <> s_addr (w_spu w)
  /\ forall l s', Forall calm l -> run s l = Some s' ->
       In ((k, 0), Some x) (r_parts (y_remote s')) /\ in_sync (y_home s') g (y_remote s').
Proof. exact moved. Qed.
Print Assumptions C97_moved_refuted.

(** The settings of a topic do not follow those of the home's. *)
Theorem C97_settings_refuted : exists s g k w t, reached s /\ paired s g /\ known s g /\ told (y_home s) (g_remote g) k w
  /\ get k (r_topics (y_remote s)) = Some t /\ sp_settings (t_spec t) <> sp_settings (w_spec w)
  /\ forall l s', Forall calm l -> run s l = Some s' ->
       exists t', get k (r_topics (y_remote s')) = Some t' /\ sp_settings (t_spec t') = sp_settings (t_spec t).
Proof. exact settings_stay. Qed.
Print Assumptions C97_settings_refuted.

(** A topic is deleted at the remote although the home still mirrors it, when the
    SPU that has it is not registered at the moment. *)
Theorem C97_unplaced_refuted : exists s g k t parts l s', reached s /\ paired s g /\ known s g
  /\ In (k, t) (h_topics (y_home s)) /\ sp_replicas (t_spec t) = RHome parts false /\ In (g_remote g) parts
  /\ get k (r_topics (y_remote s)) <> None /\ r_parts (y_remote s) <> []
  /\ Forall calm_uncut l /\ run s l = Some s' /\ get k (r_topics (y_remote s')) = None /\ r_parts (y_remote s') = [].
Proof. exact unplaced. Qed.
Print Assumptions C97_unplaced_refuted.

(** A topic users delete and create anew as an ordinary one is deleted, when a
    message was being handled. *)
Theorem C97_race_refuted : exists s g r k t s', reached s /\ y_remote s = r /\ paired s g /\ r_topics r = [(k, t)] /\ (forall id, ~ mirror_of id t)
  /\ run s [Work Done] = Some s' /\ r_topics (y_remote s') = [].
Proof. exact race. Qed.
Print Assumptions C97_race_refuted.
