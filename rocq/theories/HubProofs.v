Require Import List Lia. Import ListNotations.
From Verif Require Import Base NameModel HubModel HubSpec.

Lemma same_iff a b : same a b = true <-> a = b.
Proof. unfold same. destruct (name_eq a b); intuition congruence. Qed.
Lemma same_refl a : same a a = true. Proof. apply same_iff. reflexivity. Qed.
Lemma same_false a b : same a b = false <-> a <> b.
Proof. unfold same. destruct (name_eq a b); intuition congruence. Qed.

Section Maps.
  Context {A : Type}.
  Lemma get_put (k : name) (v : A) l j : get j (put k v l) = if same k j then Some v else get j l.
  Proof.
    induction l as [|[x w] l IH]; cbn [put get].
    - reflexivity.
    - destruct (same x k) eqn:E; cbn [get].
      + apply same_iff in E as ->. destruct (same k j); reflexivity.
      + rewrite IH. destruct (same x j) eqn:F; [|reflexivity]. destruct (same k j) eqn:G; [|reflexivity].
        apply same_iff in F as ->. apply same_iff in G as ->. rewrite same_refl in E. discriminate E.
  Qed.
  Lemma get_in (k : name) (v : A) l : get k l = Some v -> In (k, v) l.
  Proof.
    induction l as [|[x w] l IH]; cbn [get]; [discriminate|]. destruct (same x k) eqn:E.
    - intros [= ->]. apply same_iff in E as ->. left. reflexivity.
    - intros G. right. apply IH, G.
  Qed.
  Lemma in_get (k : name) (v : A) l : NoDup (map fst l) -> In (k, v) l -> get k l = Some v.
  Proof.
    induction l as [|[x w] l IH]; cbn [map fst get]; intros N I; [destruct I|]. inversion N as [|? ? N1 N2]; subst. destruct I as [[= -> ->]|I].
    - rewrite same_refl. reflexivity.
    - destruct (same x k) eqn:E; [|apply IH; assumption]. apply same_iff in E as ->. exfalso. apply N1. apply in_map_iff. exists (k, v). auto.
  Qed.
  Lemma get_none (k : name) (l : list (name * A)) : get k l = None <-> ~ In k (map fst l).
  Proof.
    induction l as [|[x w] l IH]; cbn [map fst get In]; [intuition|]. destruct (same x k) eqn:E.
    - apply same_iff in E as ->. split; [discriminate|]. intros H. exfalso. apply H. left. reflexivity.
    - rewrite IH. apply same_false in E. intuition.
  Qed.
  Lemma get_app (k : name) (l m : list (name * A)) : get k (l ++ m) = match get k l with Some v => Some v | None => get k m end.
  Proof. induction l as [|[x w] l IH]; cbn [app get]; [reflexivity|]. destruct (same x k); [reflexivity|exact IH]. Qed.
  Lemma in_put_keys (k : name) (v : A) l x : In x (map fst (put k v l)) -> x = k \/ In x (map fst l).
  Proof.
    induction l as [|[y w] l IH]; cbn [put map fst In]; [intuition|]. destruct (same y k) eqn:E; cbn [map fst In]; [|intuition].
    apply same_iff in E as ->. intuition.
  Qed.
  Lemma put_keys (k : name) (v : A) l : NoDup (map fst l) -> NoDup (map fst (put k v l)).
  Proof.
    induction l as [|[x w] l IH]; cbn [put map fst]; intros N; [constructor; [intros []|constructor]|].
    inversion N as [|? ? N1 N2]; subst. destruct (same x k) eqn:E; cbn [map fst].
    - apply same_iff in E as ->. exact N.
    - constructor; [|apply IH, N2]. intros I. apply in_put_keys in I as [->|I]; [rewrite same_refl in E; discriminate E|auto].
  Qed.
End Maps.

Section Proofs.
  Variable S : scheme.
  Implicit Types (p : archive S).

  (** * The signatures of a package *)
  Lemma getsigs_app p q : forall acc, getsigs S (p ++ q) acc = match getsigs S p acc with Good l => getsigs S q l | Bad e => Bad e end.
  Proof.
    induction p as [|[n d] p IH]; intros acc; cbn [app getsigs]; [reflexivity|]. destruct (same (stem n) signfile_base); [|apply IH].
    destruct (s_read S d); [apply IH|reflexivity].
  Qed.
  Lemma getsigs_plain p acc : Forall (fun e => stem (fst e) <> signfile_base) p -> getsigs S p acc = Good acc.
  Proof.
    intros F. induction F as [|[n d] p E F IH]; cbn [getsigs]; [reflexivity|]. apply same_false in E. cbn [fst] in E. rewrite E. exact IH.
  Qed.
  (** A signature that is found is in the package, as the last of its name. *)
  Lemma getsigs_inv p : forall acc l, getsigs S p acc = Good l -> NoDup (map fst acc) -> Forall (fun e => stem (fst e) = signfile_base) acc ->
    NoDup (map fst l) /\ forall n x, In (n, x) l -> (In (n, x) acc /\ Forall (fun e => fst e <> n) p) \/ exists d, last_entry S p n d /\ s_read S d = Some x /\ stem n = signfile_base.
  Proof.
    induction p as [|[n d] p IH]; cbn [getsigs]; intros acc l G N K.
    - injection G as <-. split; [exact N|]. intros n x I. left. split; [exact I|constructor].
    - destruct (same (stem n) signfile_base) eqn:E.
      + destruct (s_read S d) as [y|] eqn:R; [|discriminate]. apply same_iff in E.
        assert (K' : Forall (fun e => stem (fst e) = signfile_base) (put n y acc)).
        { apply Forall_forall. intros [a b] I. cbn [fst]. apply (in_map fst) in I. cbn [fst] in I. apply in_put_keys in I as [->|I]; [exact E|].
          apply in_map_iff in I as [e [<- I]]. rewrite Forall_forall in K. exact (K _ I). }
        destruct (IH _ _ G (put_keys n y acc N) K') as [N' H]. split; [exact N'|].
        intros m x I. destruct (H m x I) as [[J F]|(d' & (a & b & -> & F) & R' & T)].
        * apply in_get in J; [|apply put_keys, N]. rewrite get_put in J. destruct (same n m) eqn:Q.
          -- apply same_iff in Q as <-. injection J as <-. right. exists d. split; [exists [], p; auto|]. split; [exact R|exact E].
          -- left. split; [apply get_in, J|]. constructor; [apply same_false in Q; exact Q|exact F].
        * right. exists d'. split; [exists ((n, d) :: a), b; auto|auto].
      + destruct (IH _ _ G N K) as [N' H]. split; [exact N'|]. intros m x I. destruct (H m x I) as [[J F]|(d' & (a & b & -> & F) & R' & T)].
        * left. split; [exact J|]. constructor; [|exact F]. cbn [fst]. intros ->. rewrite Forall_forall in K. pose proof (K _ J) as K'. cbn in K'.
          apply same_false in E. exact (E K').
        * right. exists d'. split; [exists ((n, d) :: a), b; auto|auto].
  Qed.

  (** * What verifying looks at *)
  Lemma expected_keys l : forall acc, NoDup (map fst acc) -> NoDup (map fst (expected l acc)).
  Proof. induction l as [|f l IH]; intros acc N; cbn [expected]; [exact N|]. apply IH, put_keys, N. Qed.
  Lemma expected_get n l : forall acc,
    (forall t, (exists a f b, l = a ++ f :: b /\ f_name f = n /\ f_sig f = t /\ Forall (fun g => f_name g <> n) b) -> get n (expected l acc) = Some (t, (false, false)))
    /\ (Forall (fun g => f_name g <> n) l -> get n (expected l acc) = get n acc).
  Proof.
    induction l as [|f l IH]; intros acc; cbn [expected]; split.
    - intros t (a & g & b & E & _). destruct a; discriminate E.
    - reflexivity.
    - intros t (a & g & b & E & Hn & Ht & F). destruct a as [|y a]; cbn [app] in E.
      + injection E as -> ->. destruct (IH (put (f_name g) (f_sig g, (false, false)) acc)) as [_ J]. rewrite (J F), get_put, Hn, same_refl, Ht. reflexivity.
      + injection E as -> ->. destruct (IH (put (f_name y) (f_sig y, (false, false)) acc)) as [J _]. apply J. exists a, g, b. auto.
    - intros F. inversion F as [|? ? F1 F2]; subst. destruct (IH (put (f_name f) (f_sig f, (false, false)) acc)) as [_ J]. rewrite (J F2), get_put.
      apply same_false in F1. rewrite F1. reflexivity.
  Qed.
  Lemma expected_some n l v : get n (expected l []) = Some v -> exists t, v = (t, (false, false)) /\
    (exists a f b, l = a ++ f :: b /\ f_name f = n /\ f_sig f = t /\ Forall (fun g => f_name g <> n) b).
  Proof.
    intros G. destruct (Exists_dec (fun g => f_name g = n) l) as [X|X]; [intros g; apply name_eq| |].
    - assert (Y : exists a f b, l = a ++ f :: b /\ f_name f = n /\ Forall (fun g => f_name g <> n) b).
      { clear G. induction l as [|f l IH]; [inversion X|]. destruct (Exists_dec (fun g => f_name g = n) l) as [Y|Y]; [intros g; apply name_eq| |].
        - destruct (IH Y) as (a & g & b & -> & H1 & H2). exists (f :: a), g, b. auto.
        - inversion X as [? ? H|? ? H]; subst; [|contradiction]. exists [], f, l. repeat split. apply Forall_Exists_neg in Y. exact Y. }
      destruct Y as (a & f & b & E & H1 & H2). exists (f_sig f). assert (Z : exists a f0 b, l = a ++ f0 :: b /\ f_name f0 = n /\ f_sig f0 = f_sig f /\ Forall (fun g => f_name g <> n) b) by (exists a, f, b; auto).
      destruct (expected_get n l []) as [J _]. rewrite (J _ Z) in G. injection G as <-. split; [reflexivity|exact Z].
    - apply Forall_Exists_neg in X. destruct (expected_get n l []) as [_ J]. rewrite (J X) in G. discriminate G.
  Qed.

  (** What the state of a file is after all entries. *)
  Fixpoint outcome (key : bytes) (p : archive S) (n : name) (v : isv) : isv :=
    match p with
    | [] => v
    | (m, d) :: t => outcome key t n (if same m n then (fst v, (true, match s_check S key d (fst v) with Some b => b | None => false end)) else v)
    end.
  Lemma outcome_fst key p n : forall v, fst (outcome key p n v) = fst v.
  Proof. induction p as [|[m d] p IH]; intros v; cbn [outcome]; [reflexivity|]. rewrite IH. destruct (same m n); reflexivity. Qed.
  Lemma check_all_good key p : forall (acc l : list (name * isv)), check_all S key p acc = Good l -> NoDup (map fst acc) ->
    NoDup (map fst l) /\ forall n, get n l = option_map (outcome key p n) (get n acc).
  Proof.
    induction p as [|[m d] p IH]; cbn [check_all]; intros acc l C N.
    - injection C as <-. split; [exact N|]. intros n. destruct (get n acc); reflexivity.
    - destruct (get m acc) as [[sg fl]|] eqn:G.
      + destruct (s_check S key d sg) as [b|] eqn:K; [|discriminate]. destruct (IH _ _ C (put_keys _ _ _ N)) as [N' H]. split; [exact N'|].
        intros n. rewrite H, get_put. cbn [outcome]. destruct (same m n) eqn:E.
        * apply same_iff in E as <-. rewrite G. cbn [option_map fst]. rewrite K. reflexivity.
        * destruct (get n acc); reflexivity.
      + destruct (IH _ _ C N) as [N' H]. split; [exact N'|]. intros n. rewrite H. cbn [outcome]. destruct (same m n) eqn:E.
        * apply same_iff in E as <-. rewrite G. reflexivity.
        * reflexivity.
  Qed.
  Lemma check_all_ok key p : forall acc : list (name * isv), (forall n (v : isv), get n acc = Some v -> forall d, In (n, d) p -> s_check S key d (fst v) <> None) ->
    exists l, check_all S key p acc = Good l.
  Proof.
    induction p as [|[m d] p IH]; cbn [check_all]; intros acc H; [eauto|]. destruct (get m acc) as [[sg fl]|] eqn:G.
    - destruct (s_check S key d sg) as [b|] eqn:K; [|exfalso; exact (H _ _ G d (or_introl eq_refl) K)]. apply IH.
      intros n v. rewrite get_put. destruct (same m n) eqn:E.
      + intros [= <-] d' I. cbn [fst]. apply same_iff in E as <-. exact (H _ _ G d' (or_intror I)).
      + intros G' d' I. exact (H _ _ G' d' (or_intror I)).
    - apply IH. intros n v G' d' I. exact (H _ _ G' d' (or_intror I)).
  Qed.
  Lemma outcome_none key p n v : Forall (fun e => fst e <> n) p -> outcome key p n v = v.
  Proof. intros F. revert v. induction F as [|[m d] p E F IH]; intros v; cbn [outcome]; [reflexivity|]. apply same_false in E. cbn [fst] in E. rewrite E. apply IH. Qed.
  Lemma outcome_last key p n d : last_entry S p n d -> forall v, outcome key p n v = (fst v, (true, match s_check S key d (fst v) with Some b => b | None => false end)).
  Proof.
    intros (a & b & -> & F). induction a as [|[m c] a IH]; intros v; cbn [app outcome].
    - rewrite same_refl, outcome_none by exact F. reflexivity.
    - rewrite IH. destruct (same m n); reflexivity.
  Qed.
  Lemma last_or p n : (exists d, last_entry S p n d) \/ Forall (fun e => fst e <> n) p.
  Proof.
    induction p as [|[m d] p IH]; [right; constructor|]. destruct IH as [[c (a & b & -> & F)]|F].
    - left. exists c. exists ((m, d) :: a), b. auto.
    - destruct (name_eq m n) as [->|E]; [left; exists d, [], p; auto|right; constructor; assumption].
  Qed.

  (** [verify_sig] says exactly this. *)
  Definition good_files (p : archive S) (x : psig) : Prop :=
    forall n t, lists x n t -> exists d, last_entry S p n d /\ signed_by S (p_pubkey x) d t.
  Lemma verify_sig_good p x : verify_sig S p x = Good tt -> s_valid S (p_pubkey x) = true /\ good_files p x.
  Proof.
    unfold verify_sig. destruct (s_valid S (p_pubkey x)); [|discriminate]. destruct (check_all S (p_pubkey x) p (expected (p_files x) [])) as [l|e] eqn:C; [|discriminate].
    match goal with |- (if ?c then _ else _) = _ -> _ => destruct c eqn:F end; [|discriminate]. intros _. split; [reflexivity|]. intros n t L.
    destruct (check_all_good _ _ _ _ C (expected_keys _ [] (NoDup_nil _))) as [N H]. specialize (H n).
    rewrite (proj1 (expected_get n (p_files x) []) t L) in H. cbn [option_map] in H. apply get_in in H. rewrite forallb_forall in F. apply F in H. cbn [snd fst] in H.
    apply Bool.andb_true_iff in H as [H1 H2]. destruct (last_or p n) as [[d E]|E].
    - exists d. split; [exact E|]. rewrite (outcome_last _ _ _ _ E) in H2. cbn [fst snd] in H2. unfold signed_by.
      destruct (s_check S (p_pubkey x) d t) as [[|]|]; try discriminate. reflexivity.
    - rewrite (outcome_none _ _ _ _ E) in H1. discriminate H1.
  Qed.
  Lemma good_verify p x : s_valid S (p_pubkey x) = true -> (forall n t d, lists x n t -> In (n, d) p -> s_check S (p_pubkey x) d t <> None) ->
    good_files p x -> verify_sig S p x = Good tt.
  Proof.
    intros V D G. unfold verify_sig. rewrite V. destruct (check_all_ok (p_pubkey x) p (expected (p_files x) [])) as [l C].
    { intros n v E d I. apply expected_some in E as (t & -> & L). exact (D n t d L I). }
    rewrite C. destruct (check_all_good _ _ _ _ C (expected_keys _ [] (NoDup_nil _))) as [N H].
    match goal with |- (if ?c then _ else _) = _ => assert (Q : c = true); [|rewrite Q; reflexivity] end. apply forallb_forall. intros [n v] I. apply (in_get n v l N) in I. rewrite H in I.
    destruct (get n (expected (p_files x) [])) as [u|] eqn:E; [|discriminate]. injection I as <-. apply expected_some in E as (t & -> & L).
    destruct (G n t L) as (d & E & K). cbn [snd]. rewrite (outcome_last _ _ _ _ E). cbn [fst snd]. unfold signed_by in K. rewrite K. reflexivity.
  Qed.

  (** * Lists without repeated names *)
  Lemma nodup_last p n d : NoDup (map fst p) -> In (n, d) p -> last_entry S p n d.
  Proof.
    intros N I. apply in_split in I as (a & b & ->). exists a, b. split; [reflexivity|]. rewrite map_app in N. cbn [map fst] in N.
    apply NoDup_remove_2 in N. apply Forall_forall. intros [m c] J. cbn [fst]. intros ->. apply N. apply in_or_app. right. apply in_map_iff. exists (n, c). auto.
  Qed.
  Lemma last_in p n d : last_entry S p n d -> In (n, d) p.
  Proof. intros (a & b & -> & _). apply in_or_app. right. left. reflexivity. Qed.
  Lemma nodup_topfile p n d : NoDup (map fst p) -> In (n, d) p -> topfile S p n = Good d.
  Proof. intros N I. unfold topfile. rewrite (in_get _ _ _ N I). reflexivity. Qed.
  Lemma lists_signed k p n t : lists (mkPsig (map (sign_file S k) p) (s_pub S k)) n t -> exists d, In (n, d) p /\ t = s_sign S k d.
  Proof.
    intros (a & f & b & E & Hn & Ht & _). cbn [p_files] in E. assert (I : In f (map (sign_file S k) p)) by (rewrite E; apply in_or_app; right; left; reflexivity).
    apply in_map_iff in I as [[m d] [<- I]]. cbn in Hn, Ht. subst. eauto.
  Qed.
End Proofs.
