(** Concrete histories of the local metadata storage. *)
From Verif Require Export LocalWatch.

(** Kind 1 belongs to kind 0 (partitions to topics), kind 2 to kind 1. *)
Notation own := Nat.pred.
Notation item0 n := (mkItem n 0 None None).
Notation plain n spec := (mkObj (mkItem n 0 None None) spec 0).
Notation owned n p := (mkObj (mkItem n 0 (Some (mkItem p 0 None None)) None) 0 0).
Notation sys0 := (c_sys mach0).
Notation start_op a := (Spawn (prog_of own a)).

Fixpoint exec_all (owner : kind -> kind) (s : sys) (l : list op) : option (sys * list reply) :=
  match l with
  | [] => Some (s, [])
  | a :: t => match exec (prog_of owner a) s with
              | Some (s', r) => match exec_all owner s' t with Some (s'', rs) => Some (s'', r :: rs) | None => None end
              | None => None
              end
  end.

(** Two objects, and a crash while one is written. *)
Notation torn_events := (start_op (Apply 0 (plain 1 7)) :: steps 0 5 ++ start_op (Apply 0 (plain 2 8)) :: steps 1 4 ++ start_op (UpdateByKey 0 1 9) :: steps 2 2).
Lemma torn_run : exists s s', runs calm mach0 torn_events s /\ visible (c_sys s) 0 1 = Some (plain 1 7) /\ visible (c_sys s) 0 2 = Some (plain 2 8) /\
  mach_step s (CrashIn 2) = Some s' /\ visible (c_sys s') 0 1 = None /\ visible (c_sys s') 0 2 = None /\ ~ readable (c_sys s') 0.
Proof.
  assert (D : exists s, drive calmb mach0 torn_events = Some s) by (eexists; vm_compute; reflexivity).
  destruct D as [s D]. exists s. pose proof (drive_runs calmb calm calmb_calm _ _ _ D) as R.
  vm_compute in D. injection D as <-. eexists. split; [exact R|]. split; [reflexivity|]. split; [reflexivity|]. split; [vm_compute; reflexivity|].
  split; [reflexivity|]. split; [reflexivity|]. intros N. apply N. reflexivity.
Qed.
(** The file cannot be written. *)
Lemma error_run : exists s s' s'', runs calm mach0 torn_events s /\ mach_step s (Run 2 Untouched) = Some s' /\
  nth_error (c_tasks s') 2 = Some (Ret RErr) /\ option_map o_spec (visible (c_sys s') 0 1) = Some 9 /\ waiting (c_sys s') 0 = waiting (c_sys s) 0 /\
  mach_step s' Crash = Some s'' /\ option_map o_spec (visible (c_sys s'') 0 1) = Some 7.
Proof.
  assert (D : exists s, drive calmb mach0 torn_events = Some s) by (eexists; vm_compute; reflexivity).
  destruct D as [s D]. exists s. pose proof (drive_runs calmb calm calmb_calm _ _ _ D) as R.
  vm_compute in D. injection D as <-. eexists _, _. split; [exact R|]. split; [vm_compute; reflexivity|]. split; [reflexivity|]. split; [reflexivity|]. split; [reflexivity|].
  split; [vm_compute; reflexivity|]. reflexivity.
Qed.
(** The file cannot be removed. *)
Notation back_events := (start_op (Apply 0 (plain 1 7)) :: steps 0 5 ++ start_op (Delete 0 (item0 1)) :: steps 1 2 ++ Run 1 Untouched :: steps 1 2).
Lemma back_run : exists s s', runs any_event mach0 back_events s /\ nth_error (c_tasks s) 1 = Some (Ret RUnit) /\ visible (c_sys s) 0 1 = None /\
  mach_step s Crash = Some s' /\ visible (c_sys s') 0 1 = Some (plain 1 7).
Proof.
  assert (D : exists s, drive (fun _ _ => true) mach0 back_events = Some s) by (eexists; vm_compute; reflexivity).
  destruct D as [s D]. exists s. pose proof (drive_runs (fun _ _ => true) any_event (fun _ _ _ => Logic.I) _ _ _ D) as R.
  vm_compute in D. injection D as <-. eexists. split; [exact R|]. split; [reflexivity|]. split; [reflexivity|]. split; [vm_compute; reflexivity|]. reflexivity.
Qed.
(** Two tasks load the store. *)
Definition no_faultb (_ : mach) (e : event) : bool := match e with Run _ Fine => true | Run _ _ | CrashIn _ => false | _ => true end.
Notation twice_events := (start_op (Apply 0 (plain 1 7)) :: start_op (List 0) :: [Run 0 Fine; Run 1 Fine; Run 0 Fine; Run 1 Fine] ++ steps 0 3 ++ steps 1 2).
Lemma no_faultb_ok s e : no_faultb s e = true -> no_fault e.
Proof. destruct e as [p|i [| |]|h| |i]; cbn; try discriminate; auto. Qed.
Lemma twice_run : exists s, runs (fun _ e => no_fault e) mach0 twice_events s /\ nth_error (c_tasks s) 0 = Some (Ret RUnit) /\ visible (c_sys s) 0 1 = None.
Proof.
  assert (D : exists s, drive no_faultb mach0 twice_events = Some s) by (eexists; vm_compute; reflexivity).
  destruct D as [s D]. exists s. pose proof (drive_runs no_faultb (fun _ e => no_fault e) no_faultb_ok _ _ _ D) as R.
  vm_compute in D. injection D as <-. split; [exact R|]. split; reflexivity.
Qed.

(** Deleted and created again. *)
Lemma aba_run : exists s1 s2 s3 s4 o, exec (prog_of own (Apply 0 (plain 1 7))) sys0 = Some (s1, RUnit) /\ visible s1 0 1 = Some o /\
  exec (prog_of own (Delete 0 (o_item o))) s1 = Some (s2, RUnit) /\ exec (prog_of own (Apply 0 (plain 1 8))) s2 = Some (s3, RUnit) /\
  exec (prog_of own (UpdateSpec 0 (o_item o) 9)) s3 = Some (s4, RUnit) /\ option_map o_spec (visible s4 0 1) = Some 9.
Proof.
  eexists _, _, _, _, _. split; [vm_compute; reflexivity|]. split; [vm_compute; reflexivity|]. split; [vm_compute; reflexivity|].
  split; [vm_compute; reflexivity|]. split; [vm_compute; reflexivity|]. reflexivity.
Qed.
(** The spec and then the status, with the same metadata. *)
Lemma second_run : exists s1 s2 s3 o, exec (prog_of own (Apply 0 (plain 1 7))) sys0 = Some (s1, RUnit) /\ visible s1 0 1 = Some o /\
  exec (prog_of own (UpdateSpec 0 (o_item o) 9)) s1 = Some (s2, RUnit) /\
  exec (prog_of own (UpdateStatus 0 (o_item o) 5)) s2 = Some (s3, RErr) /\ s3 = s2 /\ option_map o_status (visible s3 0 1) = Some 0.
Proof.
  eexists _, _, _, _. split; [vm_compute; reflexivity|]. split; [vm_compute; reflexivity|]. split; [vm_compute; reflexivity|].
  split; [vm_compute; reflexivity|]. split; reflexivity.
Qed.

(** The link to a child that was changed stays. *)
Lemma stale_link_run : exists s rs, exec_all own sys0
    [Apply 0 (plain 1 0); Apply 0 (plain 2 0); Apply 1 (owned 5 1); UpdateByKey 1 5 3; Delete 1 (item0 5); Apply 1 (owned 5 2); Delete 0 (item0 1)] = Some (s, rs) /\
  Forall (fun r => r = RUnit) rs /\ visible s 1 5 = None /\ exists o, visible s 0 2 = Some o /\ listed o 1 (item0 5).
Proof.
  eexists _, _. split; [vm_compute; reflexivity|]. split; [repeat constructor|]. split; [reflexivity|]. eexists. split; [vm_compute; reflexivity|].
  eexists _, _. split; [reflexivity|]. split; [left; reflexivity|left; reflexivity].
Qed.
(** The children of the children stay. *)
Lemma grandchild_run : exists s rs, exec_all own sys0 [Apply 0 (plain 1 0); Apply 1 (owned 5 1); Apply 2 (owned 6 5); Delete 0 (item0 1)] = Some (s, rs) /\
  Forall (fun r => r = RUnit) rs /\ visible s 0 1 = None /\ visible s 1 5 = None /\ visible s 2 6 = Some (owned 6 5).
Proof. eexists _, _. split; [vm_compute; reflexivity|]. split; [repeat constructor|]. split; [reflexivity|]. split; reflexivity. Qed.
(** After a restart the store of the children is not there. *)
Lemma restart_run : exists s1 rs s2, exec_all own sys0 [Apply 0 (plain 1 0); Apply 1 (owned 5 1)] = Some (s1, rs) /\ Forall (fun r => r = RUnit) rs /\
  exec (prog_of own (Delete 0 (item0 1))) (c_sys (restart (y_disk s1))) = Some (s2, RErr) /\
  visible s2 0 1 <> None /\ visible s2 1 5 <> None.
Proof. eexists _, _, _. split; [vm_compute; reflexivity|]. split; [repeat constructor|]. split; [vm_compute; reflexivity|]. split; discriminate. Qed.
(** The owner is changed while a child is linked: the child is stored, and not listed. *)
Notation unlinked_events := (start_op (Apply 0 (plain 1 0)) :: steps 0 5 ++ start_op (Apply 1 (owned 5 1)) :: steps 1 7 ++ start_op (UpdateByKey 0 1 3) :: steps 2 5 ++ steps 1 1 ++ start_op (Delete 0 (item0 1)) :: steps 3 5).
Lemma unlinked_run : exists s, runs calm mach0 unlinked_events s /\ nth_error (c_tasks s) 1 = Some (Ret RErr) /\ nth_error (c_tasks s) 3 = Some (Ret RUnit) /\
  visible (c_sys s) 1 5 = Some (owned 5 1) /\ visible (c_sys s) 0 1 = None.
Proof.
  assert (D : exists s, drive calmb mach0 unlinked_events = Some s) by (eexists; vm_compute; reflexivity).
  destruct D as [s D]. exists s. pose proof (drive_runs calmb calm calmb_calm _ _ _ D) as R.
  vm_compute in D. injection D as <-. split; [exact R|]. repeat split.
Qed.

(** The update that was made first is sent last. *)
Notation overtake_events := (start_op (Apply 0 (plain 1 7)) :: steps 0 5 ++ [start_op (UpdateByKey 0 1 9); start_op (Delete 0 (item0 1))] ++ steps 1 3 ++ steps 2 5 ++ steps 1 2).
Lemma overtake_run : exists s, runs calm mach0 overtake_events s /\ Forall (fun p => p = Ret RUnit) (c_tasks s) /\
  visible (c_sys s) 0 1 = None /\ lookup 1 (fold_left (follow 0) (waiting (c_sys s) 0) []) <> None.
Proof.
  assert (D : exists s, drive calmb mach0 overtake_events = Some s) by (eexists; vm_compute; reflexivity).
  destruct D as [s D]. exists s. pose proof (drive_runs calmb calm calmb_calm _ _ _ D) as R.
  vm_compute in D. injection D as <-. split; [exact R|]. split; [repeat constructor|]. split; [reflexivity|]. discriminate.
Qed.
(** Two receivers: each takes one of two updates. *)
Lemma two_run : exists s x y, turns own any_op 0 sys0 [x; y] s /\ waiting s 0 = [] /\ visible s 0 1 <> None /\ visible s 0 2 <> None /\
  lookup 2 (fold_left (follow 0) [x] []) = None /\ lookup 1 (fold_left (follow 0) [y] []) = None.
Proof.
  eexists _, _, _. split.
  { eapply turns_op with (a := Apply 0 (plain 1 7)); [vm_compute; reflexivity|exact Logic.I|].
    eapply turns_op with (a := Apply 0 (plain 2 8)); [vm_compute; reflexivity|exact Logic.I|].
    refine (turns_recv own any_op 0 _ 0 _ _ _ _ _ [_] _ _ _); [vm_compute; reflexivity|].
    refine (turns_recv own any_op 0 _ 0 _ _ _ _ _ [] _ _ _); [vm_compute; reflexivity|]. apply turns_nil. }
  split; [vm_compute; reflexivity|]. split; [vm_compute; discriminate|]. split; [vm_compute; discriminate|]. split; vm_compute; reflexivity.
Qed.
(** One object more than the queue has room for. *)
Fixpoint fill (i n : nat) : list event := match n with O => [] | S m => start_op (Apply 0 (plain i 0)) :: steps i 4 ++ fill (S i) m end.
Notation full_events := (start_op (List 0) :: steps 0 4 ++ fill 1 100 ++ start_op (Apply 0 (plain 101 0)) :: steps 101 3).
Lemma full_run : exists s, runs calm mach0 full_events s /\ visible (c_sys s) 0 101 <> None /\
  forall es s', runs (nobody_receives 0) s es s' -> forall r, nth_error (c_tasks s') 101 <> Some (Ret r).
Proof.
  assert (D : exists s, drive calmb mach0 full_events = Some s /\
      match visible (c_sys s) 0 101 with Some _ => true | None => false end = true /\
      match nth_error (c_tasks s) 101 with Some (Do (Send 0%nat _ _) _) => true | _ => false end = true /\
      Nat.leb max_updates (length (waiting (c_sys s) 0)) = true).
  { eexists. split; [vm_compute; reflexivity|]. split; [vm_compute; reflexivity|]. split; vm_compute; reflexivity. }
  destruct D as [s [D [V [W F]]]]. exists s. split; [exact (drive_runs calmb calm calmb_calm _ _ _ D)|].
  split; [destruct (visible (c_sys s) 0 101); [discriminate|discriminate V]|].
  destruct (nth_error (c_tasks s) 101) as [[r0|[ | | | | | |[|h] v u| | ] c]|] eqn:E; try discriminate W.
  unfold waiting in F. destruct (nth_error (y_heap (c_sys s)) 0) as [t|] eqn:Et; [|cbv in F; discriminate].
  apply Nat.leb_le in F. intros es s' R r X. rewrite (full_waits _ _ _ _ _ _ _ _ _ R E Et F) in X. discriminate.
Qed.

(** * Cases of the theorems *)
Lemma history_run : exists s o, runs calm mach0 torn_events s /\ history mach0 torn_events 0 1 = [Some o] /\ visible (c_sys s) 0 1 = Some o.
Proof.
  assert (D : exists s, drive calmb mach0 torn_events = Some s) by (eexists; vm_compute; reflexivity).
  destruct D as [s D]. exists s. pose proof (drive_runs calmb calm calmb_calm _ _ _ D) as R. eexists. split; [exact R|].
  vm_compute in D. injection D as <-. split; [vm_compute; reflexivity|reflexivity].
Qed.
Notation twice_written := (start_op (Apply 0 (plain 1 7)) :: steps 0 5 ++ start_op (UpdateByKey 0 1 9) :: steps 1 5 ++ Crash :: start_op (UpdateByKey 0 1 11) :: steps 0 6).
Lemma rev_run : exists s o, runs calm mach0 twice_written s /\ length (history mach0 twice_written 0 1) = 3%nat /\ ~ In None (history mach0 twice_written 0 1) /\
  visible (c_sys s) 0 1 = Some o /\ o_rev o = 2 /\ o_spec o = 11.
Proof.
  assert (D : exists s, drive calmb mach0 twice_written = Some s) by (eexists; vm_compute; reflexivity).
  destruct D as [s D]. exists s. pose proof (drive_runs calmb calm calmb_calm _ _ _ D) as R. eexists. split; [exact R|].
  vm_compute in D. injection D as <-. split; [vm_compute; reflexivity|]. split; [vm_compute; intuition discriminate|]. split; [reflexivity|]. split; reflexivity.
Qed.
Notation before := (start_op (Apply 0 (plain 1 7)) :: steps 0 5).
Notation race := ([start_op (UpdateByKey 0 1 9); start_op (UpdateByKey 0 1 10)] ++ steps 1 2 ++ steps 2 2 ++ steps 1 3).
Lemma stale_run : exists s1 s2 o c, runs calm mach0 before s1 /\ runs calm s1 race s2 /\ visible (c_sys s1) 0 1 = Some o /\
  history s1 race 0 1 <> [] /\ ~ In None (history s1 race 0 1) /\
  nth_error (c_tasks s2) 2 = Some (store_apply 0 (mkObj (o_item o) 10 0) c) /\ option_map t_kind (nth_error (y_heap (c_sys s2)) 0) = Some 0%nat.
Proof.
  assert (D : exists s1 s2, drive calmb mach0 before = Some s1 /\ drive calmb s1 race = Some s2).
  { eexists _, _. split; [vm_compute; reflexivity|vm_compute; reflexivity]. }
  destruct D as [s1 [s2 [D1 D2]]]. exists s1, s2.
  pose proof (drive_runs calmb calm calmb_calm _ _ _ D1) as R1. pose proof (drive_runs calmb calm calmb_calm _ _ _ D2) as R2.
  vm_compute in D1. injection D1 as <-. vm_compute in D2. injection D2 as <-. eexists _, (Ret RUnit). split; [exact R1|]. split; [exact R2|].
  split; [vm_compute; reflexivity|]. split; [vm_compute; discriminate|]. split; [vm_compute; intuition discriminate|]. split; reflexivity.
Qed.
Notation family := (start_op (Apply 0 (plain 1 7)) :: steps 0 5 ++ start_op (Apply 1 (owned 5 1)) :: steps 1 10).
Lemma delete_run : exists m s' o, runs calm mach0 family m /\ exec (prog_of own (Delete 0 (item0 1))) (c_sys m) = Some (s', RUnit) /\
  visible (c_sys m) 0 1 = Some o /\ listed o 1 (item0 5) /\ visible (c_sys m) 1 5 <> None /\ visible s' 1 5 = None.
Proof.
  assert (D : exists s, drive calmb mach0 family = Some s) by (eexists; vm_compute; reflexivity).
  destruct D as [s D]. exists s. pose proof (drive_runs calmb calm calmb_calm _ _ _ D) as R. vm_compute in D. injection D as <-.
  eexists _, _. split; [exact R|]. split; [vm_compute; reflexivity|]. split; [vm_compute; reflexivity|].
  split; [eexists _, _; split; [reflexivity|]; split; [left; reflexivity|left; reflexivity]|]. split; [discriminate|reflexivity].
Qed.
Lemma tidy_run : exists s, lives own (tidy own) sys0 s /\ visible s 0 1 = None /\ visible s 1 5 = None /\ visible s 1 6 = Some (owned 6 2).
Proof.
  eexists. split.
  { eapply lives_op with (a := Apply 0 (plain 1 7)); [vm_compute; reflexivity| |].
    { split; [discriminate|]. split; [reflexivity|]. split; [reflexivity|exact Logic.I]. }
    eapply lives_op with (a := Apply 0 (plain 2 8)); [vm_compute; reflexivity| |].
    { split; [discriminate|]. split; [reflexivity|]. split; [reflexivity|exact Logic.I]. }
    eapply lives_op with (a := Apply 1 (owned 5 1)); [vm_compute; reflexivity| |].
    { split; [discriminate|]. split; [reflexivity|]. split; [reflexivity|]. split; [reflexivity|]. eexists. split; reflexivity. }
    eapply lives_op with (a := Apply 1 (owned 6 2)); [vm_compute; reflexivity| |].
    { split; [discriminate|]. split; [reflexivity|]. split; [reflexivity|]. split; [reflexivity|]. eexists. split; reflexivity. }
    eapply lives_op with (a := UpdateByKey 0 1 9); [vm_compute; reflexivity| |].
    { split; [discriminate|]. reflexivity. }
    apply lives_restart.
    eapply lives_op with (a := List 1); [vm_compute; reflexivity| |].
    { split; [discriminate|exact Logic.I]. }
    eapply lives_op with (a := Delete 0 (item0 1)); [vm_compute; reflexivity| |].
    { split; [discriminate|exact Logic.I]. }
    apply lives_nil. }
  split; [vm_compute; reflexivity|]. split; vm_compute; reflexivity.
Qed.
Lemma watch_run : exists s1 objs s2 x y, exec (prog_of own (List 0)) sys0 = Some (s1, RList 0 objs) /\ lookup 0 (y_stores s1) = Some 0%nat /\
  turns own any_op 0 s1 [x; y] s2 /\ waiting s2 0 = [] /\ visible s2 0 1 = Some (mkObj (mkItem 1 1 None None) 9 0).
Proof.
  eexists _, _, _, _, _. split; [vm_compute; reflexivity|]. split; [vm_compute; reflexivity|]. split.
  { eapply turns_op with (a := Apply 0 (plain 1 7)); [vm_compute; reflexivity|exact Logic.I|].
    refine (turns_recv own any_op 0 _ 0 _ _ _ _ _ [_] _ _ _); [vm_compute; reflexivity|].
    eapply turns_op with (a := UpdateByKey 0 1 9); [vm_compute; reflexivity|exact Logic.I|].
    refine (turns_recv own any_op 0 _ 0 _ _ _ _ _ [] _ _ _); [vm_compute; reflexivity|]. apply turns_nil. }
  split; vm_compute; reflexivity.
Qed.

(** * The properties *)
Lemma restart_same es s : runs calm mach0 es s ->
  forall k n, readable (c_sys s) k /\ visible (c_sys (restart (y_disk (c_sys s)))) k n = visible (c_sys s) k n.
Proof.
  intros R k n. pose proof (runs_good _ _ _ R good0) as G. split; [apply good_readable; exact G|].
  apply visible_same; [exact G|exact (good_restart _ _ G eq_refl)|reflexivity].
Qed.
Lemma durable es1 s1 es2 s2 k n : runs calm mach0 es1 s1 -> runs calm s1 es2 s2 ->
  visible (c_sys s2) k n = last (history s1 es2 k n) (visible (c_sys s1) k n).
Proof. intros R1 R2. apply runs_history; [exact R2|exact (runs_good _ _ _ R1 good0)]. Qed.
Lemma counted es1 s1 es2 s2 k n o : runs calm mach0 es1 s1 -> runs calm s1 es2 s2 ->
  visible (c_sys s1) k n = Some o -> ~ In None (history s1 es2 k n) ->
  exists o', visible (c_sys s2) k n = Some o' /\ o_rev o' = o_rev o + Z.of_nat (length (history s1 es2 k n)).
Proof. intros R1 R2. apply (runs_rev _ _ _ _ _ R2 (runs_good _ _ _ R1 good0)). Qed.
Lemma stale_refused es1 s1 es2 s2 k n o i h t o' c : runs calm mach0 es1 s1 -> runs calm s1 es2 s2 ->
  visible (c_sys s1) k n = Some o -> ~ In None (history s1 es2 k n) -> history s1 es2 k n <> [] ->
  nth_error (c_tasks s2) i = Some (store_apply h o' c) -> nth_error (y_heap (c_sys s2)) h = Some t -> t_kind t = k ->
  o_name o' = n -> o_rev o' <= o_rev o ->
  mach_step s2 (Run i Fine) = Some (mkMach (c_sys s2) (set_nth i (Ret RErr) (c_tasks s2))).
Proof.
  intros R1 R2 V NI NE Ei Et K N Le. destruct (counted _ _ _ _ _ _ _ R1 R2 V NI) as [o2 [V2 Rv]].
  assert (L : (0 < length (history s1 es2 k n))%nat) by (destruct (history s1 es2 k n); [contradiction|cbn; lia]).
  pose proof (runs_good _ _ _ R2 (runs_good _ _ _ R1 good0)) as G.
  refine (refused s2 i h o' _ t o2 G Ei Et _ _); [rewrite K, N; exact V2|lia].
Qed.
Lemma current_accepted es s i h t o c : runs calm mach0 es s -> nth_error (c_tasks s) i = Some (store_apply h o c) -> nth_error (y_heap (c_sys s)) h = Some t ->
  (forall p, visible (c_sys s) (t_kind t) (o_name o) = Some p -> o_rev p <= o_rev o) ->
  exists s' o', mach_step s (Run i Fine) = Some s' /\ visible (c_sys s') (t_kind t) (o_name o) = Some o' /\ o_spec o' = o_spec o /\ o_status o' = o_status o.
Proof.
  intros R Ei Et Le. pose proof (runs_good _ _ _ R good0) as G. unfold store_apply in Ei. cbn [mach_step]. rewrite Ei.
  destruct (micro_step (c_sys s) (Put h o) Fine) as [[y r]|] eqn:M.
  - destruct (put_step _ _ _ _ _ G M) as [t' [Et' [[_ [_ [p [V Lt]]]]|[o' [-> [St [G1 [_ [_ V]]]]]]]]]; rewrite Et in Et'; injection Et' as <-.
    + specialize (Le p V). lia.
    + eexists _, o'. split; [reflexivity|]. cbn [c_sys]. rewrite V, !Nat.eqb_refl. split; [reflexivity|].
      unfold stored in St. destruct (visible (c_sys s) (t_kind t) (o_name o)); [destruct St as [_ ->]|subst o']; split; reflexivity.
  - cbn [micro_step] in M. rewrite Et in M. destruct (lookup (o_name o) (t_data t)) as [p|]; [destruct (o_rev o <? o_rev p)|]; discriminate.
Qed.
Lemma delete_exact owner es m k i s' r o : runs calm mach0 es m -> exec (prog_of owner (Delete k i)) (c_sys m) = Some (s', r) -> ok_reply r ->
  visible (c_sys m) k (i_id i) = Some o ->
  visible s' k (i_id i) = None /\
  (forall k' c, listed o k' c -> visible s' k' (i_id c) = None) /\
  (forall k' n', ~ (k' = k /\ n' = i_id i) -> (forall c, listed o k' c -> i_id c <> n') ->
     match visible (c_sys m) k' n' with
     | None => visible s' k' n' = None
     | Some x => exists x', visible s' k' n' = Some x' /\ o_spec x' = o_spec x /\ o_status x' = o_status x /\
                   (x' = x \/ exists p, i_parent (o_item o) = Some p /\ k' = owner k /\ n' = i_id p)
     end).
Proof.
  intros R X NE V. pose proof (runs_good _ _ _ R good0) as G. destruct (delete_effect owner _ k i s' r G X NE) as [G' D]. rewrite V in D.
  unfold deleted in D.
  assert (H : exists Vm, (forall k' n', visible s' k' n' = if (Nat.eqb k' k && Nat.eqb n' (i_id i)) || mem (children_of o) k' n' then None else Vm k' n') /\
    forall k' n', match visible (c_sys m) k' n' with None => Vm k' n' = None | Some x => exists x', Vm k' n' = Some x' /\ o_spec x' = o_spec x /\ o_status x' = o_status x /\
                   (x' = x \/ exists p, i_parent (o_item o) = Some p /\ k' = owner k /\ n' = i_id p) end).
  { destruct (i_parent (o_item o)) as [p|].
    - destruct D as [po [Vp D]]. eexists. split; [exact D|]. intros k' n'. cbv beta.
      destruct (Nat.eqb_spec k' (owner k)) as [->|]; [destruct (Nat.eqb_spec n' (i_id p)) as [->|]|]; cbn [andb].
      + rewrite Vp. eexists. split; [reflexivity|]. split; [reflexivity|]. split; [reflexivity|]. right. exists p. auto.
      + destruct (visible (c_sys m) (owner k) n') as [x|]; [exists x; auto|reflexivity].
      + destruct (visible (c_sys m) k' n') as [x|]; [exists x; auto|reflexivity].
    - exists (visible (c_sys m)). split; [exact D|]. intros k' n'. destruct (visible (c_sys m) k' n') as [x|]; [exists x; auto|reflexivity]. }
  destruct H as [Vm [H1 H2]]. split; [rewrite H1, !Nat.eqb_refl; reflexivity|]. split.
  - intros k' c L. rewrite H1. replace (mem (children_of o) k' (i_id c)) with true; [rewrite orb_true_r; reflexivity|].
    symmetry. apply mem_clist. exists c. split; [exact L|reflexivity].
  - intros k' n' N1 N2. specialize (H2 k' n'). rewrite !H1.
    assert (M : mem (children_of o) k' n' = false).
    { destruct (mem (children_of o) k' n') eqn:M; [|reflexivity]. apply mem_clist in M. destruct M as [c [L E]]. exfalso. exact (N2 c L E). }
    rewrite M, orb_false_r. destruct (Nat.eqb_spec k' k), (Nat.eqb_spec n' (i_id i)); cbn [andb]; try exact H2. tauto.
Qed.
Lemma owned_there owner s : lives owner (tidy owner) (c_sys mach0) s ->
  forall k n o p, visible s k n = Some o -> i_parent (o_item o) = Some p -> exists po, visible s (owner k) (i_id p) = Some po /\ listed po k (without_parent (o_item o)).
Proof.
  intros L k n o p V P. destruct (lives_tidy owner _ _ L good0 (ti0 owner)) as [G T].
  destruct (ti_up _ _ T _ _ _ _ V P) as [R [Ch [po [Vp [_ Lp]]]]]. exists po. split; [exact Vp|].
  pose proof (visible_name _ _ _ _ G V) as N. destruct o as [[n0 r0 p0 c0] sp st]. unfold o_rev, o_name in *. cbn in *. subst. exact Lp.
Qed.
Lemma listed_owned owner s : lives owner (tidy owner) (c_sys mach0) s ->
  forall k n po k' c, visible s k n = Some po -> listed po k' c ->
  owner k' = k /\ exists o p, visible s k' (i_id c) = Some o /\ i_parent (o_item o) = Some p /\ i_id p = n.
Proof.
  intros L k n po k' c V Li. destruct (lives_tidy owner _ _ L good0 (ti0 owner)) as [G T].
  destruct (ti_down _ _ T _ _ _ _ _ V Li) as [_ H]. exact H.
Qed.
Lemma update_keeps owner es m k i x y n s' r o : runs calm mach0 es m -> visible (c_sys m) k n = Some o -> n = i_id i -> ok_reply r ->
  (exec (prog_of owner (UpdateSpec k i x)) (c_sys m) = Some (s', r) ->
     exists o', visible s' k n = Some o' /\ o_spec o' = x /\ o_status o' = o_status o /\ o_rev o' = o_rev o + 1
       /\ forall k' n', ~ (k' = k /\ n' = n) -> visible s' k' n' = visible (c_sys m) k' n')
  /\ (exec (prog_of owner (UpdateByKey k n x)) (c_sys m) = Some (s', r) ->
     exists o', visible s' k n = Some o' /\ o_spec o' = x /\ o_status o' = o_status o /\ o_rev o' = o_rev o + 1
       /\ i_parent (o_item o') = i_parent (o_item o) /\ i_children (o_item o') = i_children (o_item o)
       /\ forall k' n', ~ (k' = k /\ n' = n) -> visible s' k' n' = visible (c_sys m) k' n')
  /\ (exec (prog_of owner (UpdateStatus k i y)) (c_sys m) = Some (s', r) ->
     exists o', visible s' k n = Some o' /\ o_status o' = y /\ o_spec o' = o_spec o /\ o_rev o' = o_rev o + 1
       /\ forall k' n', ~ (k' = k /\ n' = n) -> visible s' k' n' = visible (c_sys m) k' n').
Proof.
  intros R V -> NE. pose proof (runs_good _ _ _ R good0) as G.
  pose proof (visible_name _ _ _ _ G V) as Nm.
  assert (U : forall o' k' n', ~ (k' = k /\ n' = i_id i) -> upd (visible (c_sys m)) k (i_id i) o' k' n' = visible (c_sys m) k' n').
  { intros o' k' n' N. unfold upd. destruct (Nat.eqb_spec k' k), (Nat.eqb_spec n' (i_id i)); cbn [andb]; tauto. }
  assert (S : forall o', upd (visible (c_sys m)) k (i_id i) o' k (i_id i) = Some o') by (intros; unfold upd; rewrite !Nat.eqb_refl; reflexivity).
  split; [|split]; intros X.
  - destruct (update_effect owner _ _ _ _ _ _ G X NE eq_refl) as [_ [o' [St Vs]]]. rewrite V in St, Vs. cbn [o_name o_item] in St, Vs.
    change (o_name _) with (i_id i) in St, Vs. rewrite V in St. destruct St as [_ ->]. eexists. rewrite Vs, S. split; [reflexivity|].
    split; [reflexivity|]. split; [reflexivity|]. split; [reflexivity|]. intros. rewrite Vs. apply U; assumption.
  - destruct (update_effect owner _ _ _ _ _ _ G X NE eq_refl) as [_ [o' [St Vs]]]. rewrite V in St, Vs.
    change (o_name (mkObj (o_item o) x (o_status o))) with (o_name o) in St, Vs. rewrite Nm in St, Vs. rewrite V in St. destruct St as [_ ->]. eexists. rewrite Vs, S. split; [reflexivity|].
    split; [reflexivity|]. split; [reflexivity|]. split; [reflexivity|]. split; [reflexivity|]. split; [reflexivity|]. intros. rewrite Vs. apply U; assumption.
  - destruct (update_effect owner _ _ _ _ _ _ G X NE eq_refl) as [_ [o' [St Vs]]]. rewrite V in St, Vs. cbn [o_name o_item] in St, Vs.
    change (o_name _) with (i_id i) in St, Vs. rewrite V in St. destruct St as [_ ->]. eexists. rewrite Vs, S. split; [reflexivity|].
    split; [reflexivity|]. split; [reflexivity|]. split; [reflexivity|]. intros. rewrite Vs. apply U; assumption.
Qed.
Lemma update_run : exists es m s1 r1 s2 o, runs calm mach0 es m /\ visible (c_sys m) 0 1 = Some o /\ o_spec o = 7 /\ o_status o = 0
  /\ exec (prog_of own (UpdateStatus 0 (o_item o) 5)) (c_sys m) = Some (s1, r1) /\ ok_reply r1
  /\ exec (prog_of own (UpdateByKey 0 1 9)) s1 = Some (s2, RUnit)
  /\ option_map (fun o => (o_spec o, o_status o, o_rev o)) (visible s2 0 1) = Some (9, 5, 2).
Proof.
  exists before. assert (D : exists s, drive calmb mach0 before = Some s) by (eexists; vm_compute; reflexivity).
  destruct D as [s D]. exists s. pose proof (drive_runs calmb calm calmb_calm _ _ _ D) as R. vm_compute in D. injection D as <-.
  eexists. eexists. eexists. eexists. split; [exact R|]. split; [reflexivity|]. split; [reflexivity|]. split; [reflexivity|].
  split; [vm_compute; reflexivity|]. split; [discriminate|]. split; [vm_compute; reflexivity|]. vm_compute; reflexivity.
Qed.
