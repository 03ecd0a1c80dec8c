(** C103 and C104, as stated in CliProps.v. *)
Require Import List Lia Sorted. Import ListNotations.
From Verif Require ConsumerProofs.
From Verif Require Import Base ConsumerModel CliModel CliSpec CliProofs.

(** * C103 *)
(** What the command reads, when it is not one record *)
Definition source_lines (s : source) : option (list bytes) :=
  match s with File (Some i) => Some (until_error (lines i)) | File None => None | Stdin i => Some (until_error (lines i)) end.
Lemma produce_lines_are o fates fl ls : p_raw o = false -> source_lines (p_source o) = Some ls ->
  prefix (map fst (fst (produce o fates fl))) (records_of (p_key o) ls)
  /\ (snd (produce o fates fl) = Done -> map fst (fst (produce o fates fl)) = records_of (p_key o) ls
        /\ (p_at_most_once o = false -> Forall (fun e => snd e = Taken true) (fst (produce o fates fl))))
  /\ ((forall n, fates n = Taken true) -> fl = true -> snd (produce o fates fl) = Done).
Proof.
  intros R S. unfold produce. rewrite R. destruct (p_source o) as [[i|]|i]; simpl in S; try discriminate; injection S as <-.
  - pose proof (file_prefix (records_of (p_key o) (until_error (lines i))) (p_at_most_once o) fates) as P.
    pose proof (file_done (records_of (p_key o) (until_error (lines i))) (p_at_most_once o) fates) as D.
    pose proof (file_fine (records_of (p_key o) (until_error (lines i))) (p_at_most_once o) fates) as F.
    destruct (from_file _ _ fates) as [h x]. cbn [fst snd] in *. split; [exact P|]. split; [destruct x; [intros _; exact (D eq_refl)|discriminate]|].
    intros H ->. specialize (F H). injection F as _ ->. reflexivity.
  - pose proof (stdin_prefix (records_of (p_key o) (until_error (lines i))) (p_at_most_once o) fates 0) as P.
    pose proof (stdin_done (records_of (p_key o) (until_error (lines i))) (p_at_most_once o) fates 0) as D.
    pose proof (fun H => stdin_fine (records_of (p_key o) (until_error (lines i))) (p_at_most_once o) fates H 0) as F.
    destruct (from_stdin _ _ fates 0) as [h x]. cbn [fst snd] in *. split; [exact P|]. split; [destruct x; [intros _; exact (D eq_refl)|discriminate]|].
    intros H ->. specialize (F H). injection F as _ ->. reflexivity.
Qed.
Lemma reads_lines o d : reads o d -> source_lines (p_source o) = Some (until_error (lines (mkInput d false))).
Proof. intros [->| ->]; reflexivity. Qed.
(** Lines of a text; the last may lack its newline *)
Lemma sends_lines o ls last rs fates fl : p_raw o = false -> reads o (text ls ++ last) -> Forall line ls -> ~ In nl last -> utf8 last = true ->
  all_meant (p_key o) (match last with [] => ls | _ => ls ++ [last] end) rs ->
  prefix (map fst (fst (produce o fates fl))) rs
  /\ (snd (produce o fates fl) = Done -> map fst (fst (produce o fates fl)) = rs)
  /\ ((forall n, fates n = Taken true) -> fl = true -> snd (produce o fates fl) = Done).
Proof.
  intros R S F N U A. assert (L := reads_lines _ _ S). rewrite (text_lines _ _ F N U) in L. unfold with_last in L.
  rewrite (all_meant_one _ _ _ A _ (records_meant _ _)). destruct (produce_lines_are o fates fl _ R L) as (P & D & C).
  split; [exact P|]. split; [|exact C]. intros H. apply D, H.
Qed.
Lemma meant_exists k ls : exists rs, all_meant k ls rs /\ forall rs', all_meant k ls rs' -> rs' = rs.
Proof. exists (records_of k ls). split; [apply records_meant|]. intros rs' A. exact (all_meant_one _ _ _ A _ (records_meant _ _)). Qed.
(** What is reported as done was acknowledged *)
Lemma raw_one o fates fl r : p_raw o = true -> raw_record (p_key o) (p_source o) = Some r ->
  map fst (fst (produce o fates fl)) = [r] /\ (snd (produce o fates fl) = Done -> p_at_most_once o = false -> fst (produce o fates fl) = [(r, Taken true)])
  /\ ((forall n, fates n = Taken true) -> fl = true -> snd (produce o fates fl) = Done).
Proof.
  intros R E. unfold produce. rewrite R, E. unfold from_file. cbn [hand_all]. destruct (fates 0%nat) as [|[]] eqn:F; simpl.
  - split; [reflexivity|]. split; [discriminate|]. intros H. rewrite H in F. discriminate.
  - split; [reflexivity|]. split; [reflexivity|]. intros _ ->. destruct (p_at_most_once o); reflexivity.
  - split; [reflexivity|]. destruct (p_at_most_once o); simpl; split; try discriminate; intros H; rewrite H in F; discriminate.
Qed.
Lemma done_acked o fates fl : snd (produce o fates fl) = Done -> fl = true /\ (p_at_most_once o = false -> Forall (fun e => snd e = Taken true) (fst (produce o fates fl))).
Proof.
  intros D. split; [unfold produce in D; destruct (if p_raw o then _ else _) as [h []]; destruct fl; simpl in D; congruence|]. intros A.
  destruct (p_raw o) eqn:R.
  - destruct (raw_record (p_key o) (p_source o)) as [r|] eqn:E.
    + destruct (raw_one o fates fl r R E) as (_ & C & _). rewrite (C D A). constructor; [reflexivity|constructor].
    + unfold produce in D. rewrite R, E in D. discriminate.
  - destruct (source_lines (p_source o)) as [ls|] eqn:E.
    + apply (produce_lines_are o fates fl ls R E); assumption.
    + unfold produce in D. rewrite R in D. destruct (p_source o) as [[|]|]; discriminate.
Qed.
Lemma raw_whole o d fates fl : p_raw o = true -> reads o d ->
  map fst (fst (produce o fates fl)) = [(match p_key o with Key k => Some k | _ => None end, d)]
  /\ ((forall n, fates n = Taken true) -> fl = true -> snd (produce o fates fl) = Done).
Proof.
  intros R S. assert (E : raw_record (p_key o) (p_source o) = Some (key_of (p_key o), d)) by (destruct S as [->| ->]; reflexivity).
  destruct (raw_one o fates fl _ R E) as (A & _ & C). split; [exact A|exact C].
Qed.
(** The first line that is not UTF-8, or a failing read, ends the input *)
Lemma stops_bad o ls bad d rs fates : p_raw o = false -> reads o (text ls ++ bad ++ nl :: d) -> Forall line ls -> ~ In nl bad -> utf8 bad = false ->
  all_meant (p_key o) ls rs -> (forall n, fates n = Taken true) -> map fst (fst (produce o fates true)) = rs /\ snd (produce o fates true) = Done.
Proof.
  intros R S F N U A H. assert (L := reads_lines _ _ S). rewrite (text_bad _ _ _ F N U) in L. rewrite (all_meant_one _ _ _ A _ (records_meant _ _)).
  destruct (produce_lines_are o fates true _ R L) as (_ & D & C). specialize (C H eq_refl). split; [apply D, C|exact C].
Qed.
Lemma stops_failing o ls last rs fates : p_raw o = false ->
  p_source o = File (Some (mkInput (text ls ++ last) true)) \/ p_source o = Stdin (mkInput (text ls ++ last) true) -> Forall line ls -> ~ In nl last ->
  all_meant (p_key o) ls rs -> (forall n, fates n = Taken true) -> map fst (fst (produce o fates true)) = rs /\ snd (produce o fates true) = Done.
Proof.
  intros R S F N A H. assert (L : source_lines (p_source o) = Some ls) by (destruct S as [->| ->]; simpl; rewrite text_broken by assumption; reflexivity).
  rewrite (all_meant_one _ _ _ A _ (records_meant _ _)).
  destruct (produce_lines_are o fates true _ R L) as (_ & D & C). specialize (C H eq_refl). split; [apply D, C|exact C].
Qed.
(** Examples *)
Definition fine : nat -> fate := fun _ => Taken true.
Definition of_file (k : keying) (raw : bool) (d : bytes) : produce_opt := mkProduce k raw (File (Some (mkInput d false))) false.
Definition three : bytes := [97; 10; 255; 10; 98; 10].
Lemma not_text : produce (of_file NoKey false three) fine true = ([((None, [97]), Taken true)], Done).
Proof. reflexivity. Qed.
Lemma cr_lost : produce (of_file NoKey false [97; 13; 10]) fine true = ([((None, [97]), Taken true)], Done)
  /\ produce (of_file NoKey false [97; 10]) fine true = ([((None, [97]), Taken true)], Done).
Proof. split; reflexivity. Qed.
Lemma raw_missing k fates : map fst (fst (produce (mkProduce (Key k) true (File None) false) fates true)) = [(None, [])]
  /\ ((forall n, fates n = Taken true) -> snd (produce (mkProduce (Key k) true (File None) false) fates true) = Done).
Proof. split; [apply (raw_one (mkProduce (Key k) true (File None) false) fates true (None, [])); reflexivity|]. intros H. apply (raw_one (mkProduce (Key k) true (File None) false) fates true (None, [])); auto. Qed.
Lemma missing o fates fl : p_raw o = false -> p_source o = File None -> produce o fates fl = ([], Failed).
Proof. intros R S. unfold produce. rewrite R, S. reflexivity. Qed.

(** ** Mirrors *)
Lemma index_spec f l : forall i n, index f l i = Some n -> (exists x, nth_error l (n - i) = Some x /\ f x = true) /\ (i <= n)%nat
  /\ forall m y, (m < n - i)%nat -> nth_error l m = Some y -> f y = false.
Proof.
  induction l as [|x l IH]; intros i n; simpl; [discriminate|]. destruct (f x) eqn:E.
  - intros H. injection H as <-. rewrite Nat.sub_diag. split; [exists x; split; [reflexivity|exact E]|]. split; [lia|]. intros m y H. lia.
  - intros H. destruct (IH _ _ H) as ((y & A & B) & L & C). split; [exists y; replace (n - i)%nat with (S (n - S i)) by lia; auto|]. split; [lia|].
    intros [|m] z D; simpl; [intros X; injection X as <-; exact E|]. apply C. lia.
Qed.
Lemma index_none f l : forall i, index f l i = None -> forall x, In x l -> f x = false.
Proof. induction l as [|y l IH]; intros i; simpl; [intros _ x []|]. destruct (f y) eqn:E; [discriminate|]. intros H x [->|I]; eauto. Qed.
Lemma same_iff a b : same a b = true <-> a = b.
Proof. unfold same. destruct (list_eq_dec Z.eq_dec a b); split; congruence. Qed.
Lemma mirror_one m t l : In t l -> (forall t', In t' l -> t' <> t -> produce_to m t' = None) -> mirror_partition m l = produce_to m t.
Proof.
  intros I N. destruct (produce_to m t) as [i|] eqn:E.
  - revert I N. induction l as [|t' l IH]; intros I N; [destruct I|]. simpl. destruct I as [->|I]; [rewrite E; reflexivity|].
    destruct (produce_to m t') as [j|] eqn:F; [|apply IH; [exact I|intros; apply N; simpl; auto]].
    assert (D : {t' = t} + {t' <> t}) by (repeat decide equality). destruct D as [->|D]; [congruence|]. rewrite (N t') in F; [discriminate|simpl; auto|exact D].
  - assert (A : forall t', In t' l -> produce_to m t' = None) by (intros t' I'; assert (D : {t' = t} + {t' <> t}) by (repeat decide equality); destruct D as [->|D]; auto).
    clear I N. induction l as [|t' l IH]; [reflexivity|]. simpl. rewrite A by (simpl; auto). apply IH. intros; apply A; simpl; auto.
Qed.
Lemma home_first m n l i : produce_to m (n, Home l) = Some i -> nth_error l i = Some (m, true).
Proof.
  intros H. unfold produce_to in H. simpl in H. destruct (index_spec _ _ _ _ H) as ((x & A & B) & _). rewrite Nat.sub_0_r in A. rewrite A.
  apply andb_prop in B. destruct B as [B C]. apply same_iff in B. destruct x as [a b]. simpl in *. congruence.
Qed.
Definition ex_topics : list topic := [([97], Home [([1], true); ([2], true)]); ([98], Home [([2], true); ([1], true)])].
Lemma other_topic : mirror_partition [1] ex_topics = Some 0%nat /\ In ([98], Home [([2], true); ([1], true)]) ex_topics
  /\ produce_to [1] ([98], Home [([2], true); ([1], true)]) = Some 1%nat /\ nth_error [([2 : Z], true); ([1], true)] 0 = Some ([2], true).
Proof. repeat split; simpl; auto. Qed.
Lemma consume_home m n l i p : (exists b, nth_error l i = Some (m, b)) -> (forall j b, nth_error l j = Some (m, b) -> (i <= j)%nat) ->
  consume_partitions (Some m) p (n, Home l) = [i].
Proof.
  intros (b & H) F. unfold consume_partitions, consume_from. cbn [snd]. destruct (index _ l 0) as [k|] eqn:E.
  - destruct (index_spec _ _ _ _ E) as ((x & A & B) & _ & C). rewrite Nat.sub_0_r in *. apply same_iff in B. destruct x as [a c]. simpl in B. subst a.
    assert (i <= k)%nat by (eapply F; exact A). destruct (Nat.lt_trichotomy i k) as [L|[->|L]]; [|reflexivity|lia].
    specialize (C i _ L H). simpl in C. assert (same m m = true) by (apply same_iff; reflexivity). congruence.
  - pose proof (index_none _ _ _ E (m, b) (nth_error_In _ _ H)) as X. simpl in X. assert (same m m = true) by (apply same_iff; reflexivity). congruence.
Qed.
Lemma consume_unknown m n l : (forall b, ~ In (m, b) l) -> consume_partitions (Some m) [] (n, Home l) = seq 0 (length l).
Proof.
  intros N. unfold consume_partitions, consume_from. cbn [snd count]. destruct (index _ l 0) as [k|] eqn:E; [|reflexivity].
  destruct (index_spec _ _ _ _ E) as ((x & A & B) & _). apply same_iff in B. destruct x as [a c]. simpl in B. subst a. destruct (N c (nth_error_In _ _ A)).
Qed.

(** * C104 *)
Lemma ascending_weak l : forall a b, b <= a -> ascending a l -> ascending b l.
Proof. destruct l as [|x l]; simpl; [auto|]. intros a b H [A B]. split; [lia|exact B]. Qed.
Lemma ascending_min l : forall a, ascending a l -> Forall (fun x => a <= t_offset x) l.
Proof.
  induction l as [|x l IH]; intros a; simpl; [constructor|]. intros [A B]. constructor; [exact A|]. eapply Forall_impl; [|apply (IH _ B)]. simpl. intros; lia.
Qed.
Lemma consume_all tty l : consume tty None (map Rec l) = (l, Done).
Proof. apply consume_plain. Qed.
Lemma filter_none {A} (f : A -> bool) l : Forall (fun x => f x = false) l -> filter f l = [].
Proof. induction 1; simpl; [reflexivity|]. rewrite H. assumption. Qed.
(** With --end: what has an offset up to it; if there is none with it, the next one *)
Lemma consume_end tty e : forall l a t, ascending a l -> In e (map t_offset l) -> 
  consume tty (Some e) (map Rec l ++ t) = (filter (fun x => t_offset x <=? e) l, Done).
Proof.
  induction l as [|x l IH]; intros a t A I; [destruct I|]. simpl in A. destruct A as [A B]. simpl. destruct (Z.leb_spec e (t_offset x)) as [L|L].
  - destruct I as [<-|I].
    + rewrite Z.leb_refl. f_equal. f_equal. symmetry. apply filter_none. eapply Forall_impl; [|apply (ascending_min _ _ B)]. simpl. intros y H. apply Z.leb_gt. lia.
    + apply in_map_iff in I. destruct I as (y & E & I). pose proof (proj1 (Forall_forall _ _) (ascending_min _ _ B) y I) as H. simpl in H. lia.
  - destruct I as [E|I]; [lia|]. rewrite (IH _ t B I). destruct (Z.leb_spec (t_offset x) e); [reflexivity|lia].
Qed.
Lemma consume_gap tty e : forall l a, ascending a l -> ~ In e (map t_offset l) ->
  consume tty (Some e) (map Rec l) = (filter (fun x => t_offset x <? e) l ++ firstn 1 (filter (fun x => e <? t_offset x) l), Done).
Proof.
  induction l as [|x l IH]; intros a A N; [reflexivity|]. simpl in A. destruct A as [A B]. simpl. destruct (Z.leb_spec e (t_offset x)) as [L|L].
  - assert (e <> t_offset x) by (intros ->; apply N; simpl; auto). destruct (Z.ltb_spec (t_offset x) e); [lia|]. destruct (Z.ltb_spec e (t_offset x)); [|lia].
    replace (filter (fun x0 => t_offset x0 <? e) l) with (@nil item); [reflexivity|]. symmetry. apply filter_none.
    eapply Forall_impl; [|apply (ascending_min _ _ B)]. simpl. intros y H2. apply Z.ltb_ge. lia.
  - rewrite (IH _ B) by (intros I; apply N; simpl; auto). destruct (Z.ltb_spec (t_offset x) e); [|lia]. destruct (Z.ltb_spec e (t_offset x)); [lia|]. reflexivity.
Qed.
(** Of several partitions *)
Definition at_ (p : nat) (o : Z) : item := mkItem p o (None, []).
Lemma other_partitions : ascending 0 [at_ 0 0; at_ 0 1] /\ ascending 0 [at_ 1 0; at_ 1 1]
  /\ consume false (Some 1) (map Rec [at_ 0 0; at_ 0 1; at_ 1 0; at_ 1 1]) = ([at_ 0 0; at_ 0 1], Done).
Proof. simpl. repeat split; try lia; reflexivity. Qed.
Lemma beyond : ascending 0 [at_ 0 10] /\ consume false (Some 3) (map Rec [at_ 0 10]) = ([at_ 0 10], Done).
Proof. simpl. repeat split; try lia; reflexivity. Qed.
(** Errors *)
Lemma consume_error tty last l t : (match last with None => True | Some e => Forall (fun x => t_offset x < e) l end) ->
  consume tty last (map Rec l ++ Error :: t) = (l, Failed) /\ consume tty last (map Rec l ++ Stop :: t) = (l, Done)
  /\ consume tty last (map Rec l ++ MaxRetry :: t) = (l, if tty then Done else Failed).
Proof.
  destruct last as [e|]; intros F.
  - rewrite !consume_before by exact F. simpl. rewrite app_nil_r. auto.
  - clear F. induction l as [|x l IH]; simpl; [auto|]. destruct IH as (A & B & C). rewrite A, B, C. auto.
Qed.
(** Where it starts *)
Lemma begins f start stable : 0 <= start <= stable -> stable < 2 ^ 62 -> (forall n, In f [Head n; Start n; Tail n] -> 0 <= n < 2 ^ 32) ->
  resolve (offset_of f) start stable None = Ok (match f with Beginning => start | Head n => Z.min (start + n) stable | Start n => n | Tail n => Z.max (stable - n) start | Default => stable end).
Proof.
  intros S B N. assert (W := ConsumerProofs.wrap_small).
  assert (P62 : 2 ^ 62 = 4611686018427387904) by reflexivity. assert (P63 : 2 ^ 63 = 9223372036854775808) by reflexivity. assert (P32 : 2 ^ 32 = 4294967296) by reflexivity.
  destruct f as [|n|n|n|]; cbn [offset_of]; unfold resolve, bind, clamp.
  - rewrite W by lia. destruct (Z.ltb_spec stable start); [lia|]. destruct (Z.ltb_spec (start + 0) start); [lia|]. destruct (Z.ltb_spec stable (start + 0)); f_equal; lia.
  - assert (R : 0 <= n < 2 ^ 32) by (apply N; simpl; auto). rewrite W by lia. destruct (Z.ltb_spec stable start); [lia|]. destruct (Z.ltb_spec (start + n) start); [lia|]. destruct (Z.ltb_spec stable (start + n)); f_equal; lia.
  - assert (R : 0 <= n < 2 ^ 32) by (apply N; simpl; auto). f_equal. lia.
  - assert (R : 0 <= n < 2 ^ 32) by (apply N; simpl; auto). rewrite W by lia. destruct (Z.ltb_spec stable start); [lia|]. destruct (Z.ltb_spec (stable - n) start); [f_equal; lia|]. destruct (Z.ltb_spec stable (stable - n)); f_equal; lia.
  - rewrite W by lia. destruct (Z.ltb_spec stable start); [lia|]. destruct (Z.ltb_spec (stable - 0) start); [lia|]. destruct (Z.ltb_spec stable (stable - 0)); f_equal; lia.
Qed.
Lemma asks f tty last stream : (forall a e, f = Start a -> last = Some e -> a <= e) -> consume_cmd f tty last stream = consume tty last (stream (offset_of f)).
Proof.
  intros N. unfold consume_cmd. destruct f as [| |a| |], last as [e|]; try reflexivity. simpl. specialize (N a e eq_refl eq_refl). destruct (Z.ltb_spec e a); [lia|reflexivity].
Qed.
Lemma crossing a e tty stream : e < a -> consume_cmd (Start a) tty (Some e) stream = ([], Failed).
Proof. intros L. unfold consume_cmd. simpl. destruct (Z.ltb_spec e a); [reflexivity|lia]. Qed.
(** Printing *)
Lemma prints_text Q sized o suppress v : sound Q -> utf8 v = true -> q_binary Q v = false -> In o [Dynamic; Text; Raw] ->
  (forall k, print_record Q sized o suppress false (k, v) = v ++ [nl])
  /\ (forall k, utf8 k = true -> print_record Q sized o suppress true (Some k, v) = [91] ++ k ++ [93; 32] ++ v ++ [nl])
  /\ print_record Q sized o suppress true (None, v) = [91; 110; 117; 108; 108; 93; 32] ++ v ++ [nl].
Proof.
  intros [L _] U B I. assert (F : format_value Q sized o suppress v = Some v).
  { simpl in I. destruct I as [<-|[<-|[<-|[]]]]; simpl; rewrite ?B, (L _ U); reflexivity. }
  unfold print_record. cbn [snd fst]. rewrite F. split; [reflexivity|]. split; [|reflexivity]. intros k K. rewrite (L _ K). rewrite <- !app_assoc. reflexivity.
Qed.
Lemma utf8_app_nl b : utf8 (b ++ [nl]) = true -> utf8 b = true.
Proof.
  unfold utf8. revert b. fix IH 1. intros b. destruct b as [|b0 r]; [reflexivity|]. cbn [app WireModel.utf8_valid].
  destruct (WireModel.rng 0 b0 127); [apply IH|]. destruct (WireModel.rng 194 b0 223).
  { destruct r as [|b1 r]; cbn [app]; [unfold nl; cbn; discriminate|]. intros H. apply andb_prop in H. destruct H as [A H]. rewrite A. apply IH, H. }
  destruct (WireModel.rng 224 b0 239).
  { destruct r as [|b1 [|b2 r]]; cbn [app]; [discriminate| |].
    - rewrite Bool.andb_true_r. intros H. apply andb_prop in H. destruct H as [_ H]. vm_compute in H. discriminate.
    - intros H. apply andb_prop in H. destruct H as [A H]. rewrite A. apply IH, H. }
  destruct (WireModel.rng 240 b0 244); [|discriminate].
  destruct r as [|b1 [|b2 [|b3 r]]]; cbn [app]; [discriminate|discriminate| |].
  - rewrite Bool.andb_true_r. intros H. apply andb_prop in H. destruct H as [_ H]. vm_compute in H. discriminate.
  - intros H. apply andb_prop in H. destruct H as [A H]. rewrite A. apply IH, H.
Qed.
Lemma not_raw Q sized suppress k v : sound Q -> utf8 v = false -> print_record Q sized Raw suppress false (k, v) <> v ++ [nl].
Proof. intros [_ L] U H. unfold print_record in H. simpl in H. apply app_inv_tail in H. specialize (L v). rewrite H in L. congruence. Qed.
Lemma null_key Q sized o suppress v : sound Q ->
  print_record Q sized o suppress true (Some null_text, v) = print_record Q sized o suppress true (None, v).
Proof. intros [L _]. unfold print_record. cbn [snd fst]. destruct (format_value Q sized o suppress v); [|reflexivity]. rewrite L by reflexivity. reflexivity. Qed.
(** A text that is produced and consumed *)
Fixpoint stored (o : Z) (l : list record) : list item := match l with [] => [] | r :: t => mkItem 0 o r :: stored (o + 1) t end.
Lemma round Q sized o ls first tty : sound Q -> Forall line ls -> Forall (fun l => q_binary Q l = false) ls -> reads o (text ls) -> p_raw o = false -> p_key o = NoKey ->
  snd (produce o fine true) = Done
  /\ print_all Q sized Dynamic false false (fst (consume tty None (map Rec (stored first (map fst (fst (produce o fine true))))))) = text ls.
Proof.
  intros S F B R W K. assert (L := reads_lines _ _ R). rewrite (text_only _ F) in L. destruct (produce_lines_are o fine true _ W L) as (_ & D & C).
  assert (X := C (fun _ => eq_refl) eq_refl). split; [exact X|]. rewrite (proj1 (D X)), K, consume_plain. cbn [fst]. clear - S F B. revert first.
  induction ls as [|l ls IH]; intros first; [reflexivity|]. inversion F; subst. inversion B; subst. cbn [records_of record_of stored print_all flat_map t_record].
  unfold text. cbn [map concat]. f_equal; [|apply IH; assumption]. apply prints_text; simpl; auto. apply H1.
Qed.

(** An instance of the libraries: everything that is not text is printed as nothing *)
Definition simple : printer := mkPrinter (fun _ => false) (fun b => if utf8 b then b else []) (fun _ => []) (fun _ => None) (fun _ => []).
Lemma simple_sound : sound simple.
Proof. split; simpl; [intros b ->; reflexivity|]. intros b. destruct (utf8 b) eqn:E; [exact E|reflexivity]. Qed.
Definition ex_lines : list bytes := [[97]; []; [226; 130; 172]].
Lemma ex_lines_ok : Forall line ex_lines.
Proof.
  assert (H : forall l, ~ In nl l -> utf8 l = true -> last l 0 <> cr -> line l).
  { intros l A B C. split; [exact A|]. split; [exact B|]. intros a ->. apply C. rewrite last_last. reflexivity. }
  repeat constructor; apply H; try reflexivity; unfold nl, cr; simpl; intuition lia.
Qed.

Lemma raw_failing : forall o i fates fl, p_raw o = true -> p_source o = Stdin i -> i_fails i = true -> produce o fates fl = ([], Failed).
Proof. intros o i fates fl R S F. unfold produce. rewrite R, S. simpl. rewrite F. reflexivity. Qed.
Lemma raw_file_failing : forall o i, p_raw o = true -> p_source o = File (Some i) -> i_fails i = true ->
  produce o (fun _ => Taken true) true = ([((None, []), Taken true)], Done).
Proof.
  intros o i R S F. unfold produce. rewrite R, S. simpl. rewrite F. unfold from_file. simpl. now rewrite Bool.orb_true_r.
Qed.
Lemma remote_target : forall m n h k t i, produce_to m (n, Remote h k t) = Some i -> h = m /\ t = true /\ k <> O /\ i = O.
Proof.
  intros m n h k t i H. unfold produce_to in H. cbn [snd] in H. destruct k as [|k]; [discriminate|]. unfold same in H.
  destruct (list_eq_dec Z.eq_dec h m) as [E|]; cbn in H; [|discriminate]. destruct t; [|discriminate]. inversion H. auto.
Qed.
Lemma chosen : forall p t, (p <> [] -> consume_partitions None p t = p) /\
  forall i, In i (consume_partitions None [] t) <-> (i < count (snd t))%nat.
Proof.
  intros p t. split.
  - intro N. unfold consume_partitions. destruct p; [contradiction | reflexivity].
  - intro i. unfold consume_partitions. rewrite in_seq. simpl. intuition.
Qed.
Lemma prints_json : forall Q sized suppress k v,
  print_record Q sized Json suppress false (k, v) =
    match q_json Q v with Some x => x ++ [nl] | None => if suppress then [] else q_json_error Q v ++ [nl] end.
Proof. intros Q sized suppress k v. unfold print_record. simpl. destruct (q_json Q v); [reflexivity|]. now destruct suppress. Qed.
