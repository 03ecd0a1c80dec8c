(** The theorems about events and their listeners (C48, C53, C54). *)
From Verif Require Import EventModel EventSpec EventProofs.

(** * Offset listeners *)

(** A call that is left waiting has seen the value, or else the publisher that
    stored it is about to notify. *)
Theorem C48_never_left : forall v s j, reachable Offsets v s -> left_waiting s j -> e_value s <> last_seen s j -> publishing s.
Proof.
  intros v s j R W N. destruct (reachable_good Offsets v s R j W) as [X|X]; [|exact X].
  apply negb_false_iff, Z.eqb_eq in X. contradiction.
Qed.
Print Assumptions C48_never_left.
Example C48_never_left_nonvacuous : exists s rs,
  exec Offsets (new_event 0) [Listen 0 Check; Listen 0 Register; Listen 0 Recheck; Update 0 5] = Some (s, rs)
  /\ left_waiting s 0 /\ e_value s <> last_seen s 0.
Proof. eexists. eexists. split; [vm_compute; reflexivity|]. split; [reflexivity|discriminate]. Qed.

(** When nothing is being published and the value is not the one that was seen
    last, the call returns the value after two steps of its own at most, whatever
    other listeners do; and it can take these steps. *)
Theorem C48_delivered : forall v s j l s' rs, reachable Offsets v s -> quiet s -> e_value s <> last_seen s j ->
  exec Offsets s l = Some (s', rs) -> Forall (listening j) l -> (2 <= steps_of j l)%nat ->
  exists vs, returned j rs = e_value s :: vs.
Proof.
  intros v s j l s' rs R Q N. apply (delivered Offsets v s j l s' rs R Q). apply negb_true_iff, Z.eqb_neq. exact N.
Qed.
Print Assumptions C48_delivered.
Theorem C48_can_go_on : forall v s j, reachable Offsets v s -> quiet s -> e_value s <> last_seen s j ->
  exists x, x <> Drop /\ estep Offsets s (Listen j x) <> None.
Proof.
  intros v s j R Q N. apply can_go_on. intros W. destruct (C48_never_left v s j R W N) as (i & X). apply (Q i). unfold active. rewrite X. discriminate.
Qed.
Print Assumptions C48_can_go_on.
Example C48_delivered_nonvacuous : exists s rs s' rs',
  exec Offsets (new_event 0) [Listen 0 Check; Listen 0 Register; Listen 0 Recheck; Update 0 5; Notify 0] = Some (s, rs)
  /\ e_value s <> last_seen s 0 /\ exec Offsets s [Listen 1 Check; Listen 0 Wake; Listen 0 Read; Listen 0 Check] = Some (s', rs')
  /\ returned 0 rs' = [5].
Proof. eexists. eexists. eexists. eexists. split; [vm_compute; reflexivity|]. split; [discriminate|]. split; vm_compute; reflexivity. Qed.

(** A call that waits is not woken before a notification. *)
Theorem C48_waits : forall k s j l s' rs, left_waiting s j -> Forall (undisturbed j) l -> exec k s l = Some (s', rs) -> left_waiting s' j /\ returned j rs = [].
Proof. intros k s j l s' rs. exact (waits k j l s s' rs). Qed.
Print Assumptions C48_waits.
Example C48_waits_nonvacuous : exists s rs s' rs',
  exec Offsets (new_event 0) [Listen 0 Check; Listen 0 Register; Listen 0 Recheck] = Some (s, rs) /\ left_waiting s 0
  /\ exec Offsets s [Listen 1 Check; Update 0 5; Listen 2 Check] = Some (s', rs') /\ returned 2 rs' = [5].
Proof. do 4 eexists. split; [vm_compute; reflexivity|]. split; [reflexivity|]. split; [vm_compute; reflexivity|]. reflexivity. Qed.
(** The values that a listener is given are values of the event, in their order. *)
Theorem C48_order : forall v l s rs j, exec Offsets (new_event v) l = Some (s, rs) ->
  follows (returned j rs) (held Offsets (new_event v) l)
  /\ (rising (held Offsets (new_event v) l) -> rising (returned j rs)).
Proof.
  intros v l s rs j E. pose proof (returned_follow Offsets j l _ _ _ E) as F. split; [exact F|exact (follows_rising _ _ F)].
Qed.
Print Assumptions C48_order.
Example C48_order_nonvacuous : exists s rs,
  exec Offsets (new_event 3) [Listen 0 Check; Update 1 5; Listen 0 Check; Notify 1; Update 1 7; Update 2 8; Listen 0 Check] = Some (s, rs)
  /\ returned 0 rs = [3; 5; 8].
Proof. eexists. eexists. split; [vm_compute; reflexivity|vm_compute; reflexivity]. Qed.

(** * Sticky events *)

(** Once the flag is set it stays set, and no call is left waiting unless the
    task that set it is about to notify. *)
Theorem C48_sticky : forall s j, reachable Sticky 0 s -> e_value s = 1 ->
  (left_waiting s j -> publishing s)
  /\ (forall l s' rs, exec Sticky s l = Some (s', rs) -> e_value s' = 1)
  /\ (forall l s' rs, quiet s -> exec Sticky s l = Some (s', rs) -> Forall (listening j) l -> (2 <= steps_of j l)%nat -> returned j rs <> []).
Proof.
  intros s j R V. destruct (sticky_values s R) as (HL & _ & _ & _).
  assert (N : is_new Sticky (e_value s) (last_seen s j) = true) by (rewrite V, HL; reflexivity).
  split; [intros W; destruct (reachable_good Sticky 0 s R j W) as [X|X]; [congruence|exact X]|].
  split; [intros l s' rs E; exact (sticky_stays Sticky s l s' rs eq_refl R E V)|].
  intros l s' rs Q E F K. destruct (delivered Sticky 0 s j l s' rs R Q N E F K) as (vs & ->). discriminate.
Qed.
Print Assumptions C48_sticky.
Example C48_sticky_nonvacuous : exists s rs,
  exec Sticky (new_event 0) [Listen 0 Check; Listen 0 Register; Update 3 1; Listen 1 Check; Listen 0 Recheck; Notify 3] = Some (s, rs)
  /\ e_value s = 1 /\ returned 0 rs = [1] /\ returned 1 rs = [1].
Proof. eexists. eexists. repeat (split; [vm_compute; reflexivity|]). vm_compute. reflexivity. Qed.

(** * Findings *)

(** A listener can be given the same value twice, although there is only one
    publisher and it published the value once. *)
Theorem C48_repeat_refuted : exists l s rs, exec Offsets (new_event 0) l = Some (s, rs)
  /\ returned 0 rs = [5; 5] /\ held Offsets (new_event 0) [Update 0 5] = [0; 5]
  /\ filter (fun a => match a with Update _ _ => true | _ => false end) l = [Update 0 5].
Proof.
  exists [Update 0 5; Listen 0 Check; Listen 0 Check; Listen 0 Register; Listen 0 Recheck; Notify 0; Listen 0 Wake; Listen 0 Read].
  eexists. eexists. repeat (split; [vm_compute; reflexivity|]). vm_compute. reflexivity.
Qed.
Print Assumptions C48_repeat_refuted.
(** A listener that has seen nothing yet is not told of the value 0. *)
Theorem C48_zero_refuted : exists l s rs, exec Offsets (new_event (-1)) l = Some (s, rs)
  /\ quiet s /\ e_value s = 0 /\ returned 0 rs = [] /\ left_waiting s 0.
Proof.
  exists [Update 0 0; Notify 0; Listen 0 Check; Listen 0 Register; Listen 0 Recheck]. eexists. eexists.
  split; [vm_compute; reflexivity|]. split; [intros [|[|i]] A; apply A; reflexivity|]. repeat (split; [vm_compute; reflexivity|]). vm_compute. reflexivity.
Qed.
Print Assumptions C48_zero_refuted.
(** A listener can miss a value that is overwritten by an increment which had
    loaded the value before it. *)
Theorem C48_overwritten_refuted : exists l s rs, exec Offsets (new_event 5) l = Some (s, rs)
  /\ In (Update 1 (-1)) l /\ quiet s /\ returned 0 rs = [5; 6] /\ e_value s = 6 /\ left_waiting s 0.
Proof.
  exists [Listen 0 Check; Listen 0 Check; Listen 0 Register; Listen 0 Recheck; Load 0; Update 1 (-1); Store 0; Notify 0; Notify 1;
     Listen 0 Wake; Listen 0 Read; Listen 0 Check; Listen 0 Register; Listen 0 Recheck]. eexists. eexists.
  split; [vm_compute; reflexivity|]. split; [cbn; tauto|].
  split; [intros [|[|i]] A; apply A; reflexivity|]. repeat (split; [vm_compute; reflexivity|]). vm_compute. reflexivity.
Qed.
Print Assumptions C48_overwritten_refuted.

(** * Listeners of metadata stores *)

(** While at most one task at a time changes the store, a listener is not left
    waiting while the store has changed since it looked, unless the task that
    changed it is about to say so. *)
Theorem C53_never_left : forall s j, one_writer s -> left_waiting s j -> last_seen s j < e_epoch s -> exists i, active s i.
Proof. exact meta_left. Qed.
Print Assumptions C53_never_left.
Theorem C53_delivered : forall s j l s' rs, one_writer s -> quiet s -> last_seen s j < e_epoch s ->
  exec Metadata s l = Some (s', rs) -> Forall (listening j) l -> (2 <= steps_of j l)%nat -> returned j rs <> [].
Proof. exact meta_delivered. Qed.
Print Assumptions C53_delivered.
Theorem C53_looks : forall s j s' r, estep Metadata s (Sync j) = Some (s', r) -> last_seen s' j = e_epoch s'.
Proof. exact meta_sync. Qed.
Print Assumptions C53_looks.
Example C53_nonvacuous : exists s s', one_writer s /\ left_waiting s 0 /\ last_seen s 0 < e_epoch s
  /\ one_writer s' /\ quiet s' /\ last_seen s' 0 < e_epoch s' /\ l_at (e_lis s' 0) = LWaiting true.
Proof.
  assert (U : forall w i i', set (fun _ => POut) 0 w i <> POut -> set (fun _ => POut) 0 w i' <> POut -> i = i').
  { intros w i i'. unfold set. destruct (Nat.eqb_spec i 0), (Nat.eqb_spec i' 0); subst; congruence. }
  eexists. eexists.
  assert (O : one_writer (mkE 0 1 (set (fun _ => POut) 0 (PHas 1)) (set (set (set (fun _ => new_listener) 0 (mkL 0 LChecked)) 0 (mkL 0 (LRegistered false))) 0 (mkL 0 (LWaiting false))))).
  { apply (ow_step (mkE 0 0 (fun _ => POut) (set (set (set (fun _ => new_listener) 0 (mkL 0 LChecked)) 0 (mkL 0 (LRegistered false))) 0 (mkL 0 (LWaiting false)))) (Write 0) _ None);
      [|reflexivity|exact (U _)].
    apply (ow_step (mkE 0 0 (fun _ => POut) (set (set (fun _ => new_listener) 0 (mkL 0 LChecked)) 0 (mkL 0 (LRegistered false)))) (Listen 0 Recheck) _ None);
      [|reflexivity|intros i i' A; destruct (A eq_refl)].
    apply (ow_step (mkE 0 0 (fun _ => POut) (set (fun _ => new_listener) 0 (mkL 0 LChecked))) (Listen 0 Register) _ None);
      [|reflexivity|intros i i' A; destruct (A eq_refl)].
    apply (ow_step (new_event 0) (Listen 0 Check) _ None); [constructor|reflexivity|intros i i' A; destruct (A eq_refl)]. }
  split; [exact O|]. split; [reflexivity|]. split; [reflexivity|]. split.
  - eapply (ow_step _ (Notify 0)).
    + eapply (ow_step _ (Store 0)); [exact O|reflexivity|]. unfold active. cbn. intros i i'. unfold set.
      destruct (Nat.eqb_spec i 0), (Nat.eqb_spec i' 0); subst; congruence.
    + reflexivity.
    + unfold active. cbn. intros i i'. unfold set. destruct (Nat.eqb_spec i 0), (Nat.eqb_spec i' 0); subst; congruence.
  - split; [intros [|[|i]] A; apply A; reflexivity|]. split; reflexivity.
Qed.

(** Finding: when two tasks change the store at the same time, the later change
    can be announced first, and a listener can be left waiting although the store
    has changed since it looked and nobody is about to say so. *)
Theorem C53_refuted : exists l s rs, exec Metadata (new_event 0) l = Some (s, rs)
  /\ quiet s /\ left_waiting s 0 /\ last_seen s 0 < e_epoch s.
Proof.
  exists [Write 0; Sync 0; Write 1; Store 1; Store 0; Listen 0 Check; Notify 0; Notify 1; Listen 0 Register; Listen 0 Recheck].
  eexists. eexists. split; [vm_compute; reflexivity|].
  split; [intros [|[|i]] A; apply A; reflexivity|]. split; reflexivity.
Qed.
Print Assumptions C53_refuted.

(** * The replicas of which a follower is to be told *)

(** While there are replicas to tell of, the connection of the follower is not
    left waiting, unless a task that adds one is about to notify it. *)
Theorem C54_never_left : forall R (req : R -> R -> bool) s l, preachable req s ->
  p_handler s = HListen l -> l_at l = LWaiting false -> p_set s <> [] -> p_adder s <> None.
Proof. intros R req s l. exact (pending_left req s l). Qed.
Print Assumptions C54_never_left.
(** When no task is adding one, after three steps of its own the connection has
    told of all of them; and it can take these steps. *)
Theorem C54_delivered : forall R (req : R -> R -> bool) s l s', preachable req s -> p_adder s = None -> p_handler s <> HGone ->
  pexec req s l = Some s' -> Forall goes_on l -> (3 <= length l)%nat -> incl (p_set s) (p_told s').
Proof. intros R req s l s'. exact (pending_delivered req s l s'). Qed.
Print Assumptions C54_delivered.
Theorem C54_can_go_on : forall R (req : R -> R -> bool) s, preachable req s -> p_adder s = None -> p_set s <> [] -> p_handler s <> HGone ->
  exists a, goes_on a /\ pstep req s a <> None.
Proof. intros R req s. exact (pending_can req s). Qed.
Print Assumptions C54_can_go_on.
(** None is lost: those that were added are those that were told of or are still
    in the set. *)
Theorem C54_none_lost : forall R (req : R -> R -> bool) l s r, (forall a b, req a b = true <-> a = b) ->
  pexec req new_pending l = Some s -> (In r (p_told s ++ p_set s) <-> exists i, In (Insert i r) l).
Proof. intros R req l s r REQ. exact (pending_kept req REQ l s r). Qed.
Print Assumptions C54_none_lost.
Example C54_nonvacuous : exists s s',
  pexec Z.eqb new_pending [Connect; HStep Check; HStep Register; Insert 0 7; HStep Recheck; PLoad; PStore; PNotify; Insert 1 8] = Some s
  /\ p_set s = [7; 8] /\ p_adder s <> None
  /\ pexec Z.eqb s [PLoad; PStore; PNotify; HStep Wake; HStep Read; Drain] = Some s' /\ p_told s' = [7; 8] /\ p_set s' = [].
Proof. eexists. eexists. split; [vm_compute; reflexivity|]. split; [reflexivity|]. split; [discriminate|]. split; [reflexivity|]. split; reflexivity. Qed.
