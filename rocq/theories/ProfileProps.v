(** C102: profiles of the client. *)
Require Import List. Import ListNotations.
From Verif Require Import Base ProfileModel ProfileSpec ProfileProofs ProfileClaims.

(** C102: a command goes to the cluster that its profile names; without a profile, to
    that of the current one. *)
Theorem C102_default : forall f c, default f = Use c <->
  exists g p q, f = Holds g /\ g_current g = Some p /\ get p (g_profiles g) = Some q /\ get (f_cluster q) (g_clusters g) = Some c.
Proof. exact default_use. Qed.
Print Assumptions C102_default.
Theorem C102_named : forall p f c, named p f = Use c <->
  exists g q, f = Holds g /\ get p (g_profiles g) = Some q /\ get (f_cluster q) (g_clusters g) = Some c.
Proof. exact named_use. Qed.
Print Assumptions C102_named.
Example C102_default_ex : default (exec_all ex_two Missing) = Use at_20 /\ named 1 (exec_all ex_two Missing) = Use at_10.
Proof. split; reflexivity. Qed.

(** C102: with an address it goes there whatever the profiles are; options that
    contradict each other are refused. *)
Theorem C102_options : forall f a t, target None (Some a) t f = Use (mkCluster a t false None)
  /\ (forall p, target (Some p) (Some a) t f = Invalid) /\ (t <> Disabled -> forall p, target p None t f = Invalid).
Proof. intros f a t. split; [reflexivity|]. split; [reflexivity|]. intros N [p|]; destruct t; simpl; congruence. Qed.
Print Assumptions C102_options.

(** C102: whatever commands were executed: if there is a current profile, commands find
    its cluster, and so they do with any profile there is.  (Commands without --force,
    and no write that was cut off.) *)
Theorem C102_reached : forall l p, Forall gentle l ->
  (current (exec_all l Missing) = Some p -> exists c, default (exec_all l Missing) = Use c)
  /\ (exists_profile (exec_all l Missing) p -> exists c, named p (exec_all l Missing) = Use c).
Proof. intros l p G. split; [exact (reached l p G)|exact (reached_named l p G)]. Qed.
Print Assumptions C102_reached.
Example C102_reached_ex : Forall gentle ex_two /\ current (exec_all ex_two Missing) = Some 2.
Proof. split; [exact (proj1 ex_two_ok)|reflexivity]. Qed.

(** C102: adding a profile makes it the current one, with the address given; every
    other profile goes where it did, unless the cluster it names has the name added. *)
Theorem C102_add : forall n a t i f, exists f', exec (Add n a t i) Written f = (f', Done) /\ current f' = Some n
  /\ (exists c, default f' = Use c /\ named n f' = Use c /\ c_endpoint c = a /\ c_tls c = t /\ c_install c = Some i)
  /\ forall p c, names f p c -> p <> n -> c <> n -> named p f' = named p f.
Proof. exact adds. Qed.
Print Assumptions C102_add.
Theorem C102_sync : forall n a t f, exists f', exec (Sync n a t) Written f = (f', Done) /\ current f' = Some n
  /\ (exists c, default f' = Use c /\ named n f' = Use c /\ c_endpoint c = a /\ c_tls c = t)
  /\ forall p c, names f p c -> p <> n -> c <> n -> named p f' = named p f.
Proof. exact syncs. Qed.
Print Assumptions C102_sync.
Example C102_add_ex : names (exec_all ex_two Missing) 1 1.
Proof. exact (proj2 (proj2 (proj2 (proj2 ex_two_ok)))). Qed.
(** Which happens when a profile was renamed and one with its old name is added: the
    renamed one then goes to the new address. *)
Theorem C102_add_refuted : named 5 (exec_all ex_renamed Missing) = Use at_10
  /\ named 5 (exec_all (ex_renamed ++ [(Add 1 20 Anonymous 0, Written)]) Missing) = Use at_20.
Proof. exact add_over. Qed.
Print Assumptions C102_add_refuted.

(** C102: switching changes the current profile and nothing else. *)
Theorem C102_switch : forall f p, exists_profile f p -> exists f', exec (Switch p) Written f = (f', Done) /\ current f' = Some p /\ default f' = named p f
  /\ forall x, named x f' = named x f.
Proof. exact switches. Qed.
Print Assumptions C102_switch.

(** C102: renaming to a new name changes the name and nothing else. *)
Theorem C102_rename : forall f a b, exists_profile f a -> ~ exists_profile f b -> exists f', exec (Rename a b) Written f = (f', Done)
  /\ named b f' = named a f /\ ~ exists_profile f' a /\ (forall p, p <> a -> p <> b -> named p f' = named p f)
  /\ (current f = Some a -> current f' = Some b) /\ (current f <> Some a -> current f' = current f)
  /\ (current f = Some b \/ default f' = default f).
Proof. exact renames. Qed.
Print Assumptions C102_rename.
Theorem C102_rename_nothing : forall f a b, ~ exists_profile f a -> fst (exec (Rename a b) Written f) = f.
Proof. exact renames_nothing. Qed.
Print Assumptions C102_rename_nothing.
(** Renaming to a name that is used is done without a word: the other profile is gone,
    and if it was the current one, commands go to another cluster from then on. *)
Theorem C102_rename_refuted : default (exec_all ex_two Missing) = Use at_20
  /\ exec (Rename 1 2) Written (exec_all ex_two Missing) = (exec_all (ex_two ++ [(Rename 1 2, Written)]) Missing, Done)
  /\ default (exec_all (ex_two ++ [(Rename 1 2, Written)]) Missing) = Use at_10
  /\ forall p, named p (exec_all (ex_two ++ [(Rename 1 2, Written)]) Missing) <> Use at_20.
Proof. exact rename_over. Qed.
Print Assumptions C102_rename_refuted.

(** C102: deleting a profile deletes it and no other; if it was the current one, there
    is none afterwards, and commands without a profile are refused. *)
Theorem C102_delete : forall f p, exists_profile f p -> exists f', exec (DeleteProfile p) Written f = (f', Done) /\ ~ exists_profile f' p
  /\ (forall x, x <> p -> named x f' = named x f) /\ (current f = Some p -> current f' = None /\ default f' = NoActiveProfile)
  /\ (current f <> Some p -> current f' = current f /\ default f' = default f).
Proof. exact deletes. Qed.
Print Assumptions C102_delete.

(** C102: a cluster is deleted if no profile names it; otherwise, without --force, it
    stays and the profiles are listed. *)
Theorem C102_delete_cluster : forall l c, exists_cluster (exec_all l Missing) c -> (forall p, ~ names (exec_all l Missing) p c) ->
  exists f', exec (DeleteCluster c false) Written (exec_all l Missing) = (f', Done) /\ ~ exists_cluster f' c
    /\ (forall p, named p f' = named p (exec_all l Missing)) /\ default f' = default (exec_all l Missing) /\ current f' = current (exec_all l Missing).
Proof. exact drops_reached. Qed.
Print Assumptions C102_delete_cluster.
Theorem C102_keep_cluster : forall f c p w, names f p c -> exists_cluster f c -> exists l, exec (DeleteCluster c false) w f = (f, InUse l) /\ In p l.
Proof. exact keeps_cluster. Qed.
Print Assumptions C102_keep_cluster.
Example C102_delete_cluster_ex : snd (exec (DeleteCluster 1 false) Written (exec_all ex_two Missing)) = InUse [1]
  /\ snd (exec (DeleteCluster 1 false) Written (exec_all (ex_two ++ [(DeleteProfile 1, Written)]) Missing)) = Done.
Proof. split; reflexivity. Qed.
Theorem C102_forced_refuted : current (exec_all (ex_two ++ [(DeleteCluster 2 true, Written)]) Missing) = Some 2
  /\ default (exec_all (ex_two ++ [(DeleteCluster 2 true, Written)]) Missing) = NoCluster.
Proof. exact forced. Qed.
Print Assumptions C102_forced_refuted.

(** C102: a command that is not done changes nothing, unless its write was cut off. *)
Theorem C102_undone : forall x w f, snd (exec x w f) <> Done -> w <> Cut -> fst (exec x w f) = f.
Proof. exact undone. Qed.
Print Assumptions C102_undone.
Theorem C102_done : forall x w f, snd (exec x w f) = Done -> w = Written.
Proof. exact done_written. Qed.
Print Assumptions C102_done.
Example C102_undone_ex : exec (Switch 7) Written (exec_all ex_two Missing) = (exec_all ex_two Missing, NotFound).
Proof. reflexivity. Qed.

(** C102: the file is emptied before it is written.  When that is cut off, the next
    profile that is added replaces all there were, without a word. *)
Theorem C102_cut_refuted : named 1 (exec_all ex_two Missing) = Use at_10
  /\ default (exec_all (ex_two ++ [(Switch 1, Cut)]) Missing) = NoFile
  /\ exec (Add 3 30 Disabled 0) Written (exec_all (ex_two ++ [(Switch 1, Cut)]) Missing) = (exec_all (ex_two ++ [(Switch 1, Cut); (Add 3 30 Disabled 0, Written)]) Missing, Done)
  /\ forall p, p <> 3 -> named p (exec_all (ex_two ++ [(Switch 1, Cut); (Add 3 30 Disabled 0, Written)]) Missing) = NoCluster.
Proof. exact cut_off. Qed.
Print Assumptions C102_cut_refuted.
