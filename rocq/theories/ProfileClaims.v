(** The claims of C102. *)
Require Import List Lia. Import ListNotations.
From Verif Require Import Base ProfileModel ProfileSpec ProfileProofs.

Ltac open_named := unfold named, target, cluster_with_profile; cbn [load load_or_new g_profiles g_clusters].

Lemma adds n a t i f : exists f', exec (Add n a t i) Written f = (f', Done) /\ current f' = Some n
  /\ (exists c, default f' = Use c /\ named n f' = Use c /\ c_endpoint c = a /\ c_tls c = t /\ c_install c = Some i)
  /\ forall p c, names f p c -> p <> n -> c <> n -> named p f' = named p f.
Proof.
  exists (Holds (added n a t (Some i) (load_or_new f))). split; [reflexivity|]. split; [apply added_current|]. split.
  - destruct (default_added n a t (Some i) f) as (c & D & E & T & I & N). exists c. repeat split; try assumption. apply I. discriminate.
  - intros p c H N M. exact (named_added n a t (Some i) f p c H N M).
Qed.
Lemma syncs n a t f : exists f', exec (Sync n a t) Written f = (f', Done) /\ current f' = Some n
  /\ (exists c, default f' = Use c /\ named n f' = Use c /\ c_endpoint c = a /\ c_tls c = t)
  /\ forall p c, names f p c -> p <> n -> c <> n -> named p f' = named p f.
Proof.
  exists (Holds (added n a t None (load_or_new f))). split; [reflexivity|]. split; [apply added_current|]. split.
  - destruct (default_added n a t None f) as (c & D & E & T & I & N). exists c. repeat split; assumption.
  - intros p c H N M. exact (named_added n a t None f p c H N M).
Qed.
Lemma has_profile f p : exists_profile f p -> exists g q, f = Holds g /\ get p (g_profiles g) = Some q.
Proof. intros (c & g & q & E & P & _). exists g, q. auto. Qed.
Lemma switches f p : exists_profile f p -> exists f', exec (Switch p) Written f = (f', Done) /\ current f' = Some p /\ default f' = named p f
  /\ forall x, named x f' = named x f.
Proof.
  intros H. destruct (has_profile _ _ H) as (g & q & -> & P). unfold exec, set_current. cbn [load]. rewrite P. eexists. split; [reflexivity|].
  split; [reflexivity|]. split; [|reflexivity]. unfold default, named, target, current_cluster, cluster_with_profile. cbn [load load_or_new g_current g_profiles g_clusters].
  rewrite P. reflexivity.
Qed.
Lemma renames f a b : exists_profile f a -> ~ exists_profile f b -> exists f', exec (Rename a b) Written f = (f', Done)
  /\ named b f' = named a f /\ ~ exists_profile f' a /\ (forall p, p <> a -> p <> b -> named p f' = named p f)
  /\ (current f = Some a -> current f' = Some b) /\ (current f <> Some a -> current f' = current f)
  /\ (current f = Some b \/ default f' = default f).
Proof.
  intros H N. destruct (has_profile _ _ H) as (g & q & -> & P).
  assert (B : get b (g_profiles g) = None).
  { destruct (get b (g_profiles g)) as [q'|] eqn:E; [|reflexivity]. exfalso. apply N. exists (f_cluster q'), g, q'. auto. }
  assert (AB : a <> b) by congruence.
  unfold exec. cbn [load]. unfold rename_profile. rewrite P. cbn [fst]. eexists. split; [reflexivity|]. cbn [fst].
  split; [open_named; rewrite get_put, Z.eqb_refl, P; reflexivity|].
  split.
  { intros (c & g' & q' & E & G & _). injection E as <-. cbn [g_profiles] in G. rewrite get_put, get_del in G.
    destruct (Z.eqb_spec b a); [congruence|]. rewrite Z.eqb_refl in G. discriminate. }
  split.
  { intros p M K. open_named. rewrite get_put, get_del. destruct (Z.eqb_spec b p); [congruence|]. destruct (Z.eqb_spec a p); [congruence|]. reflexivity. }
  split; [intros E; cbn [current g_current] in *; rewrite E, Z.eqb_refl; reflexivity|].
  split.
  { intros E. cbn [current g_current] in *. destruct (g_current g) as [c|]; [|reflexivity]. destruct (Z.eqb_spec c a); [congruence|reflexivity]. }
  cbn [current]. destruct (g_current g) as [c|] eqn:E; [|right; unfold default, target, current_cluster; cbn [load g_current]; rewrite E; reflexivity].
  destruct (Z.eq_dec c b) as [->|M]; [left; reflexivity|right]. unfold default, target, current_cluster. cbn [load g_current g_profiles g_clusters]. rewrite E.
  destruct (Z.eqb_spec c a) as [->|K].
  - rewrite get_put, Z.eqb_refl, P. reflexivity.
  - rewrite get_put, get_del. destruct (Z.eqb_spec b c); [congruence|]. destruct (Z.eqb_spec a c); [congruence|]. reflexivity.
Qed.
Lemma renames_nothing f a b : ~ exists_profile f a -> fst (exec (Rename a b) Written f) = f.
Proof.
  intros N. destruct f as [| |g]; try reflexivity. unfold exec. cbn [load]. unfold rename_profile. destruct (get a (g_profiles g)) as [q|] eqn:E; [|reflexivity].
  exfalso. apply N. exists (f_cluster q), g, q. auto.
Qed.
Lemma deletes f p : exists_profile f p -> exists f', exec (DeleteProfile p) Written f = (f', Done) /\ ~ exists_profile f' p
  /\ (forall x, x <> p -> named x f' = named x f) /\ (current f = Some p -> current f' = None /\ default f' = NoActiveProfile)
  /\ (current f <> Some p -> current f' = current f /\ default f' = default f).
Proof.
  intros H. destruct (has_profile _ _ H) as (g & q & -> & P). unfold exec. cbn [load]. unfold delete_profile. rewrite P. eexists. split; [reflexivity|].
  split.
  { intros (c & g' & q' & E & G & _). injection E as <-. cbn [g_profiles] in G. rewrite get_del, Z.eqb_refl in G. discriminate. }
  split; [intros x N; open_named; rewrite get_del; destruct (Z.eqb_spec p x); [congruence|reflexivity]|].
  split; cbn [current g_current]; intros E.
  - unfold default, target, current_cluster. cbn [load g_current]. rewrite E, Z.eqb_refl. auto.
  - unfold default, target, current_cluster. cbn [load g_current g_profiles g_clusters]. destruct (g_current g) as [c|]; [|auto].
    destruct (Z.eqb_spec p c); [congruence|]. rewrite get_del. destruct (Z.eqb_spec p c); [congruence|]. auto.
Qed.
Lemma get_some_in {V} k (l : list (Z * V)) : In k (map fst l) -> exists v, get k l = Some v.
Proof.
  induction l as [|[x v] l IH]; simpl; [intros []|]. destruct (Z.eqb_spec x k) as [->|N]; [intros; eexists; reflexivity|]. intros [H|H]; [congruence|auto].
Qed.
Lemma drops_cluster f c : exists_cluster f c -> (forall p, ~ names f p c) ->
  match f with Holds g => NoDup (map fst (g_profiles g)) | _ => True end ->
  exists f', exec (DeleteCluster c false) Written f = (f', Done) /\ ~ exists_cluster f' c /\ (forall p, named p f' = named p f) /\ default f' = default f /\ current f' = current f.
Proof.
  intros (g & x & -> & C) N U. unfold exec. cbn [load]. rewrite C.
  assert (K : conflicts c g = []).
  { destruct (conflicts c g) as [|p l] eqn:E; [reflexivity|]. exfalso. apply (N p). assert (I : In p (conflicts c g)) by (rewrite E; left; reflexivity).
    unfold conflicts in I. apply in_map_iff in I. destruct I as ([p' q] & Q & I). apply filter_In in I. destruct I as [I F]. simpl in *. subst p'. apply Z.eqb_eq in F.
    exists g, q. split; [reflexivity|]. split; [|exact F]. clear -I U. induction (g_profiles g) as [|[z w] l' IH]; simpl in *; [destruct I|].
    apply NoDup_cons_iff in U. destruct U as [A B]. destruct I as [I|I].
    - injection I as -> ->. rewrite Z.eqb_refl. reflexivity.
    - destruct (Z.eqb_spec z p) as [->|M]; [exfalso; apply A; apply (in_map fst) in I; exact I|auto]. }
  rewrite K. eexists. split; [reflexivity|]. split.
  { intros (g' & y & E & G). injection E as <-. unfold delete_cluster in G. cbn [g_clusters] in G. rewrite get_del, Z.eqb_refl in G. discriminate. }
  assert (P : forall p, named p (Holds (delete_cluster c g)) = named p (Holds g)).
  { intros p. unfold delete_cluster. open_named. destruct (get p (g_profiles g)) as [q|] eqn:E; [|reflexivity]. rewrite get_del.
    pose proof (unused c g p q K E). destruct (Z.eqb_spec c (f_cluster q)); [congruence|reflexivity]. }
  split; [exact P|]. split; [|reflexivity].
  unfold default, target, current_cluster, delete_cluster. cbn [load g_current g_profiles g_clusters]. destruct (g_current g) as [p|]; [|reflexivity].
  destruct (get p (g_profiles g)) as [q|] eqn:E; [|reflexivity]. rewrite get_del. pose proof (unused c g p q K E). destruct (Z.eqb_spec c (f_cluster q)); [congruence|reflexivity].
Qed.
(** Names of profiles occur once *)
Definition once (f : file) : Prop := match f with Holds g => NoDup (map fst (g_profiles g)) | _ => True end.
Lemma nodup_del {V} k (l : list (Z * V)) : NoDup (map fst l) -> NoDup (map fst (del k l)) /\ ~ In k (map fst (del k l)).
Proof.
  intros N. split.
  - induction l as [|e l IH]; simpl in *; [constructor|]. apply NoDup_cons_iff in N. destruct N as [A B]. destruct (negb (fst e =? k)); simpl; [|auto].
    constructor; [|auto]. intros H. apply A. apply in_map_iff in H. destruct H as (x & E & I). apply filter_In in I. rewrite <- E. apply in_map. tauto.
  - intros H. apply in_map_iff in H. destruct H as (x & E & I). apply filter_In in I. destruct I as [_ I]. rewrite E, Z.eqb_refl in I. discriminate.
Qed.
Lemma nodup_put {V} k (v : V) l : NoDup (map fst l) -> NoDup (map fst (put k v l)).
Proof. intros N. destruct (nodup_del k l N). unfold put. simpl. constructor; assumption. Qed.
Lemma once_saved w g f : once f -> NoDup (map fst (g_profiles g)) -> once (fst (saved w g f)).
Proof. intros F G. destruct w; simpl; auto. Qed.
Lemma once_add n a t g : NoDup (map fst (g_profiles g)) -> NoDup (map fst (g_profiles (add_or_replace n a t g))).
Proof.
  intros N. unfold add_or_replace, set_current. cbn [g_profiles g_clusters]. destruct (get n (g_profiles g)); rewrite get_put, Z.eqb_refl; cbn [fst g_profiles]; apply nodup_put, N.
Qed.
Lemma once_exec x w f : once f -> once (fst (exec x w f)).
Proof.
  intros F. assert (L : NoDup (map fst (g_profiles (load_or_new f)))) by (destruct f; simpl; [constructor|constructor|exact F]).
  destruct x as [n a t i|n a t|p|a b|p|c force]; unfold exec.
  - apply once_saved; [exact F|]. unfold set_install. destruct (current_cluster _); try (apply once_add; exact L).
    destruct (g_current _); try (apply once_add; exact L). destruct (get z _); apply once_add; exact L.
  - apply once_saved; [exact F|apply once_add; exact L].
  - destruct f as [| |g]; cbn [load]; try exact F. unfold set_current. destruct (get p (g_profiles g)); [apply once_saved; exact F|exact F].
  - destruct f as [| |g]; cbn [load]; try exact F. apply once_saved; [exact F|]. unfold rename_profile. destruct (get a (g_profiles g)); [|exact F].
    cbn [fst g_profiles]. apply nodup_put, nodup_del, F.
  - destruct f as [| |g]; cbn [load]; try exact F. unfold delete_profile. destruct (get p (g_profiles g)); [|exact F]. apply once_saved; [exact F|apply nodup_del, F].
  - destruct f as [| |g]; cbn [load]; try exact F. destruct (get c (g_clusters g)); [|exact F].
    destruct (if force then [] else conflicts c g); [apply once_saved; exact F|exact F].
Qed.
Lemma once_all l : forall f, once f -> once (exec_all l f).
Proof. induction l as [|[x w] l IH]; intros f F; simpl; [exact F|]. apply IH, once_exec, F. Qed.
Lemma drops_reached l c : exists_cluster (exec_all l Missing) c -> (forall p, ~ names (exec_all l Missing) p c) ->
  exists f', exec (DeleteCluster c false) Written (exec_all l Missing) = (f', Done) /\ ~ exists_cluster f' c
    /\ (forall p, named p f' = named p (exec_all l Missing)) /\ default f' = default (exec_all l Missing) /\ current f' = current (exec_all l Missing).
Proof. intros E N. exact (drops_cluster _ c E N (once_all l Missing Logic.I)). Qed.
Lemma keeps_cluster f c p w : names f p c -> exists_cluster f c -> exists l, exec (DeleteCluster c false) w f = (f, InUse l) /\ In p l.
Proof.
  intros (g & q & -> & P & F) (g' & x & E & C). injection E as <-. unfold exec. cbn [load]. rewrite C.
  assert (I : In p (conflicts c g)).
  { unfold conflicts. apply in_map_iff. exists (p, q). split; [reflexivity|]. apply filter_In. split; [apply get_in; exact P|]. apply Z.eqb_eq. exact F. }
  destruct (conflicts c g) as [|p' l] eqn:K; [destruct I|]. exists (p' :: l). split; [reflexivity|exact I].
Qed.
(** Anything that is not done changes nothing, unless a write is cut off *)
Lemma undone x w f : snd (exec x w f) <> Done -> w <> Cut -> fst (exec x w f) = f.
Proof.
  intros N W. assert (S : forall g, snd (saved w g f) <> Done -> fst (saved w g f) = f).
  { intros g. destruct w; simpl; [congruence|reflexivity|congruence]. }
  destruct x as [n a t i|n a t|p|a b|p|c force]; unfold exec in *; auto.
  - destruct (load f); [|reflexivity]. destruct (set_current p c) as [g' [|]]; auto.
  - destruct (load f); [|reflexivity]. auto.
  - destruct (load f); [|reflexivity]. destruct (delete_profile p c) as [g' [|]]; auto.
  - destruct (load f); [|reflexivity]. destruct (get c (g_clusters c0)); [|reflexivity]. destruct (if force then [] else conflicts c c0); auto.
Qed.

(** Examples: profiles 1 and 2 at addresses 10 and 20 *)
Definition ex_two : list (command * write) := [(Add 1 10 Disabled 0, Written); (Add 2 20 Anonymous 0, Written)].
Definition at_10 : cluster := mkCluster 10 Disabled false (Some 0).
Definition at_20 : cluster := mkCluster 20 Anonymous false (Some 0).
Lemma ex_two_ok : Forall gentle ex_two /\ current (exec_all ex_two Missing) = Some 2 /\ default (exec_all ex_two Missing) = Use at_20 /\ named 1 (exec_all ex_two Missing) = Use at_10
  /\ names (exec_all ex_two Missing) 1 1.
Proof.
  split; [repeat constructor; discriminate|]. split; [reflexivity|]. split; [reflexivity|]. split; [reflexivity|].
  exists (load_or_new (exec_all ex_two Missing)), (mkProfile 1 None). split; [reflexivity|]. split; reflexivity.
Qed.
(** Renaming to a name that is used *)
Lemma rename_over : default (exec_all ex_two Missing) = Use at_20 /\ exec (Rename 1 2) Written (exec_all ex_two Missing) = (exec_all (ex_two ++ [(Rename 1 2, Written)]) Missing, Done)
  /\ default (exec_all (ex_two ++ [(Rename 1 2, Written)]) Missing) = Use at_10
  /\ forall p, named p (exec_all (ex_two ++ [(Rename 1 2, Written)]) Missing) <> Use at_20.
Proof.
  split; [reflexivity|]. split; [reflexivity|]. split; [reflexivity|]. intros p H. apply named_use in H.
  replace (exec_all (ex_two ++ [(Rename 1 2, Written)]) Missing) with (Holds (mkConfig (Some 2) [(2, mkProfile 1 None)] [(2, at_20); (1, at_10)])) in H by reflexivity.
  destruct H as (g & q & E & P & C). injection E as <-. cbn [get g_profiles] in P. destruct (2 =? p); [|discriminate P]. injection P as <-. discriminate C.
Qed.
(** Adding a profile with the name another one had *)
Definition ex_renamed : list (command * write) := [(Add 1 10 Disabled 0, Written); (Rename 1 5, Written)].
Lemma add_over : named 5 (exec_all ex_renamed Missing) = Use at_10
  /\ named 5 (exec_all (ex_renamed ++ [(Add 1 20 Anonymous 0, Written)]) Missing) = Use at_20.
Proof. split; reflexivity. Qed.
(** A write is cut off, and the next profile is added *)
Lemma cut_off : named 1 (exec_all ex_two Missing) = Use at_10
  /\ default (exec_all (ex_two ++ [(Switch 1, Cut)]) Missing) = NoFile
  /\ exec (Add 3 30 Disabled 0) Written (exec_all (ex_two ++ [(Switch 1, Cut)]) Missing) = (exec_all (ex_two ++ [(Switch 1, Cut); (Add 3 30 Disabled 0, Written)]) Missing, Done)
  /\ forall p, p <> 3 -> named p (exec_all (ex_two ++ [(Switch 1, Cut); (Add 3 30 Disabled 0, Written)]) Missing) = NoCluster.
Proof.
  split; [reflexivity|]. split; [reflexivity|]. split; [reflexivity|]. intros p N.
  replace (exec_all (ex_two ++ [(Switch 1, Cut); (Add 3 30 Disabled 0, Written)]) Missing) with (Holds (mkConfig (Some 3) [(3, mkProfile 3 None)] [(3, mkCluster 30 Disabled false (Some 0))])) by reflexivity.
  open_named. cbn [get]. destruct (Z.eqb_spec 3 p); [congruence|reflexivity].
Qed.
Lemma forced : current (exec_all (ex_two ++ [(DeleteCluster 2 true, Written)]) Missing) = Some 2
  /\ default (exec_all (ex_two ++ [(DeleteCluster 2 true, Written)]) Missing) = NoCluster.
Proof. split; reflexivity. Qed.
(** What is reported as done was written *)
Lemma saved_done w g f : snd (saved w g f) = Done -> w = Written.
Proof. destruct w; simpl; congruence. Qed.
Lemma done_written x w f : snd (exec x w f) = Done -> w = Written.
Proof.
  destruct x as [n a t i|n a t|p|a b|p|c force]; unfold exec; try apply saved_done; destruct (load f) as [g|]; try discriminate; try apply saved_done.
  - destruct (set_current p g) as [g' []]; [apply saved_done|discriminate].
  - destruct (delete_profile p g) as [g' []]; [apply saved_done|discriminate].
  - destruct (get c (g_clusters g)); [|discriminate]. destruct (if force then [] else conflicts c g); [apply saved_done|discriminate].
Qed.
