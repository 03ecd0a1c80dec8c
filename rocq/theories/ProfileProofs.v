(** Proofs about profiles of the client. *)
Require Import List Lia. Import ListNotations.
From Verif Require Import Base ProfileModel ProfileSpec.

Lemma get_del {V} k k' (l : list (Z * V)) : get k (del k' l) = if k' =? k then None else get k l.
Proof.
  induction l as [|[x v] t IH]; simpl; [destruct (k' =? k); reflexivity|].
  destruct (Z.eqb_spec x k') as [->|N]; simpl.
  - rewrite IH. destruct (k' =? k); reflexivity.
  - rewrite IH. destruct (Z.eqb_spec x k) as [->|M]; [destruct (Z.eqb_spec k' k); [congruence|reflexivity]|reflexivity].
Qed.
Lemma get_put {V} k k' v (l : list (Z * V)) : get k (put k' v l) = if k' =? k then Some v else get k l.
Proof. unfold put. simpl. rewrite get_del. destruct (k' =? k); reflexivity. Qed.
Lemma get_in {V} k (l : list (Z * V)) v : get k l = Some v -> In (k, v) l.
Proof.
  induction l as [|[x w] t IH]; simpl; [discriminate|]. destruct (Z.eqb_spec x k) as [->|N]; [intros E; injection E as ->; auto|auto].
Qed.

(** * Adding *)
Lemma add_current n a t g : g_current (add_or_replace n a t g) = Some n.
Proof. unfold add_or_replace, set_current. cbn [g_profiles g_clusters]. destruct (get n (g_profiles g)); rewrite get_put, Z.eqb_refl; reflexivity. Qed.
Lemma add_profiles n a t g p : get p (g_profiles (add_or_replace n a t g)) =
  if n =? p then Some (mkProfile n (match get n (g_profiles g) with Some q => f_topic q | None => None end)) else get p (g_profiles g).
Proof.
  unfold add_or_replace, set_current. cbn [g_profiles g_clusters].
  destruct (get n (g_profiles g)); rewrite get_put, Z.eqb_refl; cbn [fst g_profiles]; rewrite get_put; reflexivity.
Qed.
Lemma add_clusters n a t g c : get c (g_clusters (add_or_replace n a t g)) =
  if n =? c then Some (match get n (g_clusters g) with Some x => mkCluster a t (c_local x) (c_install x) | None => mkCluster a t false None end)
  else get c (g_clusters g).
Proof.
  unfold add_or_replace, set_current. cbn [g_profiles g_clusters].
  destruct (get n (g_profiles g)); rewrite get_put, Z.eqb_refl; cbn [fst g_clusters]; destruct (get n (g_clusters g)); rewrite get_put; reflexivity.
Qed.
Definition with_install (i : option Z) (x : cluster) : cluster := match i with Some n => mkCluster (c_endpoint x) (c_tls x) (c_local x) (Some n) | None => x end.
(** both commands that add *)
Definition added (n a : Z) (t : tls) (i : option Z) (g : config) : config :=
  match i with Some k => set_install k (add_or_replace n a t g) | None => add_or_replace n a t g end.
Lemma added_current n a t i g : g_current (added n a t i g) = Some n.
Proof.
  destruct i as [k|]; [|apply add_current]. unfold added, set_install. rewrite add_current. destruct (current_cluster _); try apply add_current.
  destruct (get n _); [reflexivity|apply add_current].
Qed.
Lemma added_use n a t g : current_cluster (add_or_replace n a t g) =
  Use (match get n (g_clusters g) with Some x => mkCluster a t (c_local x) (c_install x) | None => mkCluster a t false None end).
Proof. unfold current_cluster. rewrite add_current, add_profiles, Z.eqb_refl. cbn [f_cluster]. rewrite add_clusters, Z.eqb_refl. reflexivity. Qed.
Lemma added_profiles n a t i g p : get p (g_profiles (added n a t i g)) =
  if n =? p then Some (mkProfile n (match get n (g_profiles g) with Some q => f_topic q | None => None end)) else get p (g_profiles g).
Proof.
  destruct i as [k|]; [|apply add_profiles]. unfold added, set_install. rewrite add_current, added_use, add_profiles, Z.eqb_refl. cbn [g_profiles]. apply add_profiles.
Qed.
Lemma added_clusters n a t i g c : get c (g_clusters (added n a t i g)) =
  if n =? c then Some (with_install i (match get n (g_clusters g) with Some x => mkCluster a t (c_local x) (c_install x) | None => mkCluster a t false None end))
  else get c (g_clusters g).
Proof.
  destruct i as [k|]; [|apply add_clusters]. unfold added, set_install. rewrite add_current, added_use, add_profiles, Z.eqb_refl. cbn [g_clusters f_cluster].
  rewrite get_put, add_clusters. destruct (n =? c); reflexivity.
Qed.

(** * The invariant: the current profile is one, and profiles have their clusters *)
Definition sound (g : config) : Prop :=
  (forall p, g_current g = Some p -> get p (g_profiles g) <> None)
  /\ forall p q, get p (g_profiles g) = Some q -> get (f_cluster q) (g_clusters g) <> None.
Lemma sound_new : sound new_config.
Proof. split; intros; discriminate. Qed.
Lemma sound_added n a t i g : sound g -> sound (added n a t i g).
Proof.
  intros [A B]. split.
  - intros p. rewrite added_current. intros E. injection E as <-. rewrite added_profiles, Z.eqb_refl. discriminate.
  - intros p q. rewrite added_profiles, added_clusters. destruct (Z.eqb_spec n p) as [->|N].
    + intros E. injection E as <-. cbn [f_cluster]. rewrite Z.eqb_refl. discriminate.
    + intros E. destruct (n =? f_cluster q); [discriminate|exact (B p q E)].
Qed.
Lemma sound_rename a b g : sound g -> sound (fst (rename_profile a b g)).
Proof.
  intros [A B]. unfold rename_profile. destruct (get a (g_profiles g)) as [q|] eqn:E; [|split; assumption]. split; cbn [fst g_current g_profiles g_clusters].
  - intros p. rewrite get_put, get_del. destruct (g_current g) as [c|]; [|discriminate]. destruct (Z.eqb_spec c a) as [->|N]; intros H; injection H as <-.
    + rewrite Z.eqb_refl. discriminate.
    + destruct (Z.eqb_spec b c); [discriminate|]. destruct (Z.eqb_spec a c); [congruence|]. exact (A c eq_refl).
  - intros p q'. rewrite get_put, get_del. destruct (b =? p); [intros H; injection H as <-; exact (B a q E)|].
    destruct (a =? p); [discriminate|exact (B p q')].
Qed.
Lemma sound_delete p g : sound g -> sound (fst (delete_profile p g)).
Proof.
  intros [A B]. unfold delete_profile. destruct (get p (g_profiles g)) as [q|] eqn:E; [|split; assumption]. split; cbn [fst g_current g_profiles g_clusters].
  - intros x. rewrite get_del. destruct (g_current g) as [c|]; [|discriminate]. destruct (Z.eqb_spec p c) as [->|N]; intros H; [discriminate|]. injection H as <-.
    destruct (Z.eqb_spec p c); [congruence|]. exact (A c eq_refl).
  - intros x q'. rewrite get_del. destruct (p =? x); [discriminate|exact (B x q')].
Qed.
Lemma sound_switch p g : sound g -> sound (fst (set_current p g)).
Proof.
  intros [A B]. unfold set_current. destruct (get p (g_profiles g)) as [q|] eqn:E; [|split; assumption]. split; cbn [fst g_current g_profiles g_clusters]; [|exact B].
  intros x H. injection H as <-. congruence.
Qed.
Lemma unused c g p q : conflicts c g = [] -> get p (g_profiles g) = Some q -> f_cluster q <> c.
Proof.
  intros N E H. apply get_in in E. assert (I : In p (conflicts c g)); [|rewrite N in I; exact I].
  unfold conflicts. apply in_map_iff. exists (p, q). split; [reflexivity|]. apply filter_In. split; [exact E|]. apply Z.eqb_eq. exact H.
Qed.
Lemma sound_cluster c g : conflicts c g = [] -> sound g -> sound (delete_cluster c g).
Proof.
  intros N [A B]. split; [exact A|]. intros p q E. unfold delete_cluster. cbn [g_clusters]. rewrite get_del.
  pose proof (unused c g p q N E). destruct (Z.eqb_spec c (f_cluster q)); [congruence|exact (B p q E)].
Qed.

Definition fsound (f : file) : Prop := match f with Missing => True | Unreadable => False | Holds g => sound g end.
Lemma fsound_saved w g f : w <> Cut -> fsound f -> sound g -> fsound (fst (saved w g f)).
Proof. intros N F G. destruct w; simpl; [exact G|exact F|congruence]. Qed.
Lemma fsound_new f : fsound f -> sound (load_or_new f).
Proof. destruct f; simpl; [intros; apply sound_new|intros []|auto]. Qed.
Lemma fsound_exec x w f : gentle (x, w) -> fsound f -> fsound (fst (exec x w f)).
Proof.
  intros [X W] F. simpl in X, W. destruct x as [n a t i|n a t|p|a b|p|c force]; unfold exec.
  - apply fsound_saved; [exact W|exact F|]. apply (sound_added n a t (Some i)). apply fsound_new. exact F.
  - apply fsound_saved; [exact W|exact F|]. apply (sound_added n a t None). apply fsound_new. exact F.
  - destruct f as [| |g]; cbn [load]; try exact F. pose proof (sound_switch p g F) as S. destruct (set_current p g) as [g' ok] eqn:E.
    destruct ok; [apply fsound_saved; assumption|exact F].
  - destruct f as [| |g]; cbn [load]; try exact F. apply fsound_saved; [exact W|exact F|apply sound_rename; exact F].
  - destruct f as [| |g]; cbn [load]; try exact F. pose proof (sound_delete p g F) as S. destruct (delete_profile p g) as [g' ok] eqn:E.
    destruct ok; [apply fsound_saved; assumption|exact F].
  - subst force. destruct f as [| |g]; cbn [load]; try exact F. destruct (get c (g_clusters g)); [|exact F].
    destruct (conflicts c g) eqn:E; [|exact F]. apply fsound_saved; [exact W|exact F|apply sound_cluster; assumption].
Qed.
Lemma fsound_all l : forall f, Forall gentle l -> fsound f -> fsound (exec_all l f).
Proof.
  induction l as [|[x w] l IH]; intros f G F; simpl; [exact F|]. inversion G as [|e t A B]. subst. apply IH; [exact B|apply fsound_exec; assumption].
Qed.

(** * Which cluster *)
Lemma default_use f c : default f = Use c <-> exists g p q, f = Holds g /\ g_current g = Some p /\ get p (g_profiles g) = Some q /\ get (f_cluster q) (g_clusters g) = Some c.
Proof.
  unfold default, target. split.
  - destruct f as [| |g]; try discriminate. simpl. unfold current_cluster. destruct (g_current g) as [p|] eqn:E; [|discriminate].
    destruct (get p (g_profiles g)) as [q|] eqn:P; [|discriminate]. destruct (get (f_cluster q) (g_clusters g)) eqn:C; [|discriminate].
    intros H. injection H as <-. exists g, p, q. auto.
  - intros (g & p & q & -> & E & P & C). simpl. unfold current_cluster. rewrite E, P, C. reflexivity.
Qed.
Lemma named_use p f c : named p f = Use c <-> exists g q, f = Holds g /\ get p (g_profiles g) = Some q /\ get (f_cluster q) (g_clusters g) = Some c.
Proof.
  unfold named, target, cluster_with_profile. split.
  - destruct f as [| |g]; cbn [load load_or_new]; [discriminate|discriminate|]. destruct (get p (g_profiles g)) as [q|] eqn:P; [|intros H; discriminate H].
    destruct (get (f_cluster q) (g_clusters g)) as [c'|] eqn:C; [|intros H; discriminate H]. intros H. injection H as <-. exists g, q. auto.
  - intros (g & q & -> & P & C). cbn [load load_or_new]. rewrite P, C. reflexivity.
Qed.
Lemma default_named f p : current f = Some p -> exists_profile f p -> default f = named p f.
Proof.
  destruct f as [| |g]; simpl; try discriminate. intros E (c & g' & q & H & P & _). injection H as <-.
  unfold default, named, target, current_cluster, cluster_with_profile. cbn [load load_or_new]. rewrite E, P. reflexivity.
Qed.
Lemma reached l p : Forall gentle l -> current (exec_all l Missing) = Some p -> exists c, default (exec_all l Missing) = Use c.
Proof.
  intros G. pose proof (fsound_all l Missing G Logic.I) as S. destruct (exec_all l Missing) as [| |g]; simpl; try discriminate. intros E. destruct S as [A B].
  destruct (get p (g_profiles g)) as [q|] eqn:P; [|destruct (A p E P)]. destruct (get (f_cluster q) (g_clusters g)) as [c|] eqn:C; [|destruct (B p q P C)].
  exists c. apply default_use. exists g, p, q. auto.
Qed.
Lemma reached_named l p : Forall gentle l -> exists_profile (exec_all l Missing) p -> exists c, named p (exec_all l Missing) = Use c.
Proof.
  intros G (n & g & q & E & P & _). pose proof (fsound_all l Missing G Logic.I) as S. rewrite E in *. destruct S as [A B].
  destruct (get (f_cluster q) (g_clusters g)) as [c|] eqn:C; [|destruct (B p q P C)]. exists c. apply named_use. exists g, q. auto.
Qed.

(** * Commands *)
Lemma named_added n a t i f p c : names f p c -> p <> n -> c <> n -> named p (Holds (added n a t i (load_or_new f))) = named p f.
Proof.
  intros (g & q & -> & P & <-) N M. unfold named, target, cluster_with_profile. cbn [load load_or_new]. rewrite added_profiles.
  destruct (Z.eqb_spec n p); [congruence|]. rewrite P, added_clusters. destruct (Z.eqb_spec n (f_cluster q)); [congruence|reflexivity].
Qed.
Lemma default_added n a t i f : exists c, default (Holds (added n a t i (load_or_new f))) = Use c /\ c_endpoint c = a /\ c_tls c = t
  /\ (i <> None -> c_install c = i) /\ named n (Holds (added n a t i (load_or_new f))) = Use c.
Proof.
  set (x := with_install i (match get n (g_clusters (load_or_new f)) with Some x => mkCluster a t (c_local x) (c_install x) | None => mkCluster a t false None end)).
  exists x. assert (C : get n (g_clusters (added n a t i (load_or_new f))) = Some x) by (rewrite added_clusters, Z.eqb_refl; reflexivity).
  assert (P := added_profiles n a t i (load_or_new f) n). rewrite Z.eqb_refl in P.
  split; [apply default_use; eexists; exists n; eexists; split; [reflexivity|]; split; [apply added_current|]; split; [exact P|exact C]|].
  split; [|split; [|split]].
  - unfold x. destruct (get n (g_clusters (load_or_new f))), i; reflexivity.
  - unfold x. destruct (get n (g_clusters (load_or_new f))), i; reflexivity.
  - unfold x. destruct (get n (g_clusters (load_or_new f))), i; try reflexivity; congruence.
  - apply named_use. eexists. eexists. split; [reflexivity|]. split; [exact P|exact C].
Qed.
