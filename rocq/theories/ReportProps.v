(** C76: what the controller shows about a partition is what its leader has. *)
From Verif Require Import Base ControlModel ReportModel ReportSpec ReportProofs ReportClaims.

Theorem C76_shown : forall s k i, mruns careful nothing s -> quiet s -> In (k, i) (m_lead s) ->
  (exists sh, In (k, sh) (m_store s)) /\ forall sh, In (k, sh) (m_store s) -> reflects sh i.
Proof. exact shown_right. Qed.
Print Assumptions C76_shown.
Example C76_shown_ex : mruns careful nothing (reached ex_fine) /\ quiet (reached ex_fine) /\
  m_lead (reached ex_fine) = [(0, ex_info 10 13 11 130)] /\
  map (fun e => (fst e, st_leader (sh_part (snd e)), st_res (sh_part (snd e)))) (m_store (reached ex_fine)) =
    [(0, {| r_spu := 1; r_hw := 10; r_leo := 13 |}, POnline)].
Proof. exact fine_run. Qed.

Theorem C76_settles : forall s, exists s', mruns (fun s a => onward a /\ careful s a) s s' /\ quiet s' /\ m_lead s' = m_lead s.
Proof. exact gets_quiet. Qed.
Print Assumptions C76_settles.

Theorem C76_not_repeated : forall s s', quiet s -> mruns (fun _ a => passive a) s s' ->
  m_lead s' = m_lead s /\ keys (m_store s') = keys (m_store s) /\
  forall k sh', In (k, sh') (m_store s') -> exists sh, In (k, sh) (m_store s) /\
    st_leader (sh_part sh') = st_leader (sh_part sh) /\ st_replicas (sh_part sh') = st_replicas (sh_part sh) /\ sh_size sh' = sh_size sh.
Proof. exact not_repeated. Qed.
Print Assumptions C76_not_repeated.
Example C76_not_repeated_ex : quiet (reached ex_clean) /\ m_lead (reached ex_clean) <> [].
Proof. split; [apply quiet_b_ok; vm_compute; reflexivity|vm_compute; discriminate]. Qed.

Theorem C76_lost_refuted : exists s k, mruns lost_ok nothing s /\ quiet s /\ stale s k /\
  forall s', mruns (fun _ a => passive a) s s' -> stale s' k.
Proof. exact lost_report. Qed.
Print Assumptions C76_lost_refuted.

Theorem C76_unsent_refuted : exists s k, mruns unsent_ok nothing s /\ quiet s /\ stale s k /\
  forall s', mruns (fun _ a => passive a) s s' -> stale s' k.
Proof. exact unsent_report. Qed.
Print Assumptions C76_unsent_refuted.

Theorem C76_unknown_refuted : exists s k, mruns unknown_ok nothing s /\ quiet s /\ stale s k /\
  forall s', mruns (fun _ a => passive a) s s' -> stale s' k.
Proof. exact unknown_report. Qed.
Print Assumptions C76_unknown_refuted.

Theorem C76_overlap_refuted : exists s k, mruns overlap_ok nothing s /\ quiet s /\ stale s k /\
  forall s', mruns (fun _ a => passive a) s s' -> stale s' k.
Proof. exact overlapping_reports. Qed.
Print Assumptions C76_overlap_refuted.

Theorem C76_mark_refuted : exists s k, mruns mark_ok nothing s /\ quiet s /\ stale s k /\
  forall s', mruns (fun _ a => passive a) s s' -> stale s' k.
Proof. exact marked_over. Qed.
Print Assumptions C76_mark_refuted.

Theorem C76_retention_refuted : exists s k i sh, mruns clean_ok nothing s /\ quiet s /\ In (k, i) (m_lead s) /\ In (k, sh) (m_store s) /\
  sh_size sh <> li_size i.
Proof. exact clean_run. Qed.
Print Assumptions C76_retention_refuted.

Theorem C76_base_offset_refuted : exists s k i, mruns careful nothing s /\ quiet s /\ In (k, i) (m_lead s) /\ li_base i = 5 /\
  forall s' sh, mruns (fun _ _ => True) nothing s' -> In (k, sh) (m_store s') -> sh_base sh = 0.
Proof. exact base_wrong. Qed.
Print Assumptions C76_base_offset_refuted.
