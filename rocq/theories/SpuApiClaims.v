From Verif Require Import Base ListFacts WireModel WireSpec WireProofs RecordModel RecordSpec RecordProofs
  FrameModel FrameSpec FrameProofs VersionModel VersionSpec VersionProofs VersionClaims FileModel FileSpec FileProofs FileClaims.
From Verif Require Import MessageModel SpuApiModel SpuApiSpec SpuApiProofs.
From Verif Require MuxModel ConsumerModel ConsumerSpec ConsumerProofs.

(** ** One request *)
Lemma message_served h r rest : message_ok (h, r) -> short_timeout r ->
  exists b r', message_enc h r = Ok b /\ serve (b ++ rest) = Ok (h, r') /\ arrives (rh_version h) r r'.
Proof.
  intros (HO & KO & RO) ST. cbn [fst snd] in *. pose proof HO as (_ & HV & _).
  destruct (request_carried (rh_version h) r rest (proj1 HV) RO ST) as (b & r' & E & D & X).
  exists (c_enc (rheader_codec 0) h ++ b), r'. unfold message_enc. rewrite E. split; [reflexivity|]. split; [|exact X].
  unfold serve. rewrite <- app_assoc, rheader_dec by exact HO. cbn [bind].
  rewrite KO, by_key_key, D. reflexivity.
Qed.
Lemma message_arrives h r : message_ok (h, r) -> short_timeout r ->
  exists b r', message_enc h r = Ok b /\ serve b = Ok (h, r') /\ arrives (rh_version h) r r'.
Proof.
  intros MO ST. destruct (message_served h r [] MO ST) as (b & r' & E & D & X). rewrite app_nil_r in D. eauto.
Qed.
Lemma sent_iff h r : message_ok (h, r) -> ((exists b, message_enc h r = Ok b) <-> short_timeout r).
Proof.
  intros MO. split.
  - intros (b & E). destruct r as [p|a x]; [|exact Logic.I]. cbn [short_timeout].
    destruct (Z_lt_ge_dec (nanos (p_timeout p)) (2 ^ 31 * 10 ^ 6)) as [L|G]; [exact L|]. exfalso.
    destruct MO as (_ & _ & RO). cbn [snd] in RO. unfold message_enc in E.
    rewrite (request_refused (rh_version h) (RProduce p) RO) in E; [discriminate E|]. cbn [short_timeout]. lia.
  - intros ST. destruct (message_arrives h r MO ST) as (b & _ & E & _). eauto.
Qed.
Lemma message_sized h r b : message_ok (h, r) -> no_schemas r -> message_enc h r = Ok b ->
  zlen b = message_size h r /\ is_bytes b.
Proof.
  intros (HO & _ & RO) NS E. cbn [fst snd] in *. pose proof HO as (_ & HV & _). unfold message_enc in E.
  destruct (req_enc (rh_version h) r) as [x|] eqn:Q; [|discriminate E]. cbn [bind] in E. apply Ok_inj in E. subst b.
  destruct (request_sized _ _ _ (proj1 HV) RO NS Q) as [S B]. destruct (rheader_sized 0) as [SH BH].
  split; [|apply is_bytes_app; split; [apply BH, HO|exact B]].
  unfold message_size. rewrite zlen_app, S, (SH h HO). reflexivity.
Qed.

(** ** What is refused *)
Lemma unknown_refused h rest : rheader_ok h -> ~ In (rh_key h) (map key all_apis) ->
  serve (c_enc (rheader_codec 0) h ++ rest) = Err InvalidData.
Proof.
  intros HO NI. unfold serve. rewrite rheader_dec by exact HO. cbn [bind].
  assert (by_key (rh_key h) = None) as ->; [|reflexivity].
  unfold by_key. destruct (find _ all_apis) as [a|] eqn:Q; [|reflexivity]. exfalso. apply NI.
  apply find_some in Q as [Q1 Q2]. apply Z.eqb_eq in Q2. rewrite <- Q2. apply in_map. exact Q1.
Qed.
Lemma negative_timeout h txn a n rest : rheader_ok h -> rh_key h = key AProduce ->
  match txn with Some s => str_ok s | None => True end -> in_s 16 a -> in_s 32 n -> n < 0 ->
  serve (c_enc (rheader_codec 0) h ++ c_enc (option_codec string_codec) txn ++ be_enc 2 a ++ be_enc 4 n ++ rest) = Err InvalidData.
Proof.
  intros HO KO TO AO NO N. unfold serve. rewrite rheader_dec by exact HO. cbn [bind]. rewrite KO, by_key_key. cbn [req_dec].
  unfold produce_dec. destruct (option_lawful _ _ string_lawful) as (RT & _). rewrite RT by exact TO. cbn [bind].
  destruct s2_lawful as (RA & _). change (be_enc 2 a) with (c_enc i16_codec a). rewrite RA by exact AO. cbn [bind].
  destruct s4_lawful as (RN & _). change (be_enc 4 n) with (c_enc i32_codec n). rewrite RN by exact NO. cbn [bind].
  unfold of_timeout. replace (n <? 0) with true by lia. reflexivity.
Qed.

(** ** A connection *)
Lemma put_all_frames l : connected l -> forall buf, exists frames,
  put_all buf l = (buf ++ flat_map framed frames, map (fun _ => true) l) /\ Forall frame_ok frames
  /\ Forall2 (fun m q => fst q = fst m /\ arrives (rh_version (fst m)) (snd m) (snd q)) l (taken frames).
Proof.
  induction 1 as [|[h r] l (MO & ST & NS & SZ) Hl IH]; intros buf.
  - exists []. cbn [put_all flat_map taken map]. rewrite app_nil_r. repeat constructor.
  - cbn [fst snd] in *. destruct (message_arrives h r MO ST) as (b & r' & E & D & X).
    destruct (message_sized h r b MO NS E) as [S B]. pose proof (zlen_nonneg b) as Z0.
    assert (put_message buf (h, r) = (buf ++ framed b, true)) as P.
    { unfold put_message. cbn [fst snd]. rewrite E. unfold framed. rewrite <- S.
      rewrite wrap_s_id by (try lia; unfold in_s; change (2 ^ (32 - 1)) with (2 ^ 31); lia). reflexivity. }
    destruct (IH (buf ++ framed b)) as (fs & EF & FF & F2).
    exists (b :: fs). cbn [put_all]. rewrite P, EF. split; [|split].
    + cbn [flat_map map]. rewrite app_assoc. reflexivity.
    + constructor; [split; [exact B|lia]|exact FF].
    + cbn [taken]. rewrite D. constructor; [split; [reflexivity|exact X]|exact F2].
Qed.
Lemma no_frame : partial_frame [].
Proof. exists [], 0. split; [split; [constructor|reflexivity]|]. split; [vm_compute; split; congruence|reflexivity]. Qed.
Lemma connection l chunks : connected l -> concat chunks = fst (put_all [] l) ->
  exists frames, receive (Waiting []) chunks = (frames, Waiting [])
  /\ Forall2 (fun m q => fst q = fst m /\ arrives (rh_version (fst m)) (snd m) (snd q)) l (taken frames)
  /\ snd (put_all [] l) = map (fun _ => true) l.
Proof.
  intros C E. destruct (put_all_frames l C []) as (fs & P & F & X). rewrite P in E |- *. cbn [fst snd app] in *.
  exists fs. split; [|split; [exact X|reflexivity]]. apply frames_arrive; [exact F|exact no_frame|]. rewrite app_nil_r. exact E.
Qed.
(** The result of each request, whatever the others are. *)
Lemma put_flag buf m : message_ok m -> (snd (put_message buf m) = true <-> short_timeout (snd m)).
Proof.
  destruct m as [h r]. intros MO. rewrite <- (sent_iff h r MO). unfold put_message. cbn [fst snd].
  destruct (message_enc h r) as [b|e]; cbn [snd]; split; intros H; eauto; try discriminate H. destruct H as (b & H). discriminate H.
Qed.

(** ** A request that cannot be sent spoils the next one *)
Definition slow : rheader * request :=
  (mkRheader 0 25 1 [], RProduce (mkProduce None false (2147484, 0) [] [])).
Definition next_ : rheader * request :=
  (mkRheader 1002 25 2 [], ROther AFetchOffsets (offsets_of [([116], [0])])).
Lemma slow_ok : message_ok slow.
Proof.
  split; [|split; [reflexivity|]].
  - repeat split; try (vm_compute; congruence); constructor.
  - cbn [snd slow request_ok]. unfold produce_ok. cbn [p_txn p_timeout p_topics p_modules fst snd].
    split; [exact Logic.I|]. split; [lia|]. split; [lia|].
    split; (split; [constructor|rewrite zlen_nil; lia]).
Qed.
Lemma next_ok : message_ok next_.
Proof.
  split; [|split; [reflexivity|]].
  - repeat split; try (vm_compute; congruence); constructor.
  - split; [discriminate|]. apply fitsb_fits. vm_compute. reflexivity.
Qed.
Lemma next_connected : connected [next_].
Proof.
  constructor; [|constructor]. split; [exact next_ok|]. split; [exact Logic.I|]. split; [exact Logic.I|]. vm_compute. reflexivity.
Qed.
Lemma stray_size : exists failed m frames c, message_ok failed /\ message_ok m /\ connected [m]
  /\ snd (put_all [] [failed; m]) = [false; true]
  /\ receive (Waiting []) [fst (put_all [] [failed; m])] = (frames, c) /\ taken frames = [].
Proof.
  exists slow, next_. do 2 eexists. split; [exact slow_ok|]. split; [exact next_ok|]. split; [exact next_connected|].
  split; [vm_compute; reflexivity|]. split; [vm_compute; reflexivity|]. vm_compute. reflexivity.
Qed.

(** ** Versions *)
Lemma current_version a : version_for (listed false) a = newest a.
Proof. destruct a; vm_compute; reflexivity. Qed.
Lemma lookup_none table k lo hi : Forall (fun e => MuxModel.v_key e <> wrap_s 16 k) table -> MuxModel.lookup_version table k lo hi = None.
Proof.
  induction 1 as [|e t He Ht IH]; cbn [MuxModel.lookup_version]; [reflexivity|].
  apply Z.eqb_neq in He. rewrite He. exact IH.
Qed.
Lemma key_s16 a : wrap_s 16 (key a) = key a.
Proof. destruct a; vm_compute; reflexivity. Qed.
Lemma unlisted_version table a : a <> AStreamFetch -> Forall (fun e => MuxModel.v_key e <> key a) table ->
  version_for table a = newest a.
Proof.
  intros N F. unfold version_for. rewrite lookup_none by (rewrite key_s16; exact F). cbn [MuxModel.header_version].
  destruct a; try reflexivity. contradiction.
Qed.
Lemma whole_now a : In a carried_whole -> forall x rest, fits (req_ty a) x ->
  c_dec (vcodec (version_for (listed false) a) (req_ty a)) (c_enc (vcodec (version_for (listed false) a) (req_ty a)) x ++ rest) = Ok (x, rest).
Proof.
  intros I x rest F. rewrite current_version. refine (arrives_whole (newest a) (req_ty a) (requests_wf a) _ x rest F).
  cbn in I. repeat (destruct I as [<-|I]; [vm_compute; reflexivity|]). contradiction.
Qed.
(** The answer for one consumer is asked for; a release before the filter
    reads a request without one. *)
Definition one_consumer : uval := UT [UO (Some (UT [UO (Some (UT [US [116]; UI 0])); UO (Some (US [99]))]))].
Lemma filter_lost table : Forall (fun e => MuxModel.v_key e <> key AFetchConsumers) table ->
  exists x rest, fits fetch_consumers_req x /\ x <> UT [none] /\ rest <> [] /\ let v := version_for table AFetchConsumers in
     c_dec (vcodec v (cut (Some 23) fetch_consumers_req)) (c_enc (vcodec v fetch_consumers_req) x) = Ok (UT [], rest).
Proof.
  intros F. exists one_consumer. eexists. split; [apply fitsb_fits; vm_compute; reflexivity|]. split; [discriminate|].
  cbv zeta. rewrite unlisted_version by (discriminate || exact F). split; [|vm_compute; reflexivity]. discriminate.
Qed.

(** ** Errors *)
Fixpoint lows (t : vty) : bool :=
  match t with
  | VLeaf _ => true
  | VOpt t | VVec t | VMap _ t => lows t
  | VStruct fs => flows fs
  | VEnum _ vs => nlows vs
  end
with flows (fs : vfields) : bool :=
  match fs with
  | FNil => true
  | FCons min max _ t rest => (min <=? 0) && match max with None => true | Some _ => false end && lows t && flows rest
  end
with nlows (vs : vvars) : bool :=
  match vs with
  | NNil => true
  | NCons _ _ t rest => lows t && nlows rest
  end.
Lemma all_lows v : 0 <= v ->
  (forall t, lows t = true -> carries_all v t = true)
  /\ (forall fs, flows fs = true -> fcarries_all v fs = true)
  /\ (forall vs, nlows vs = true -> ncarries_all v vs = true).
Proof.
  intros Hv. apply vty_all_ind; cbn [lows flows nlows carries_all fcarries_all ncarries_all]; auto.
  - intros min max d t IH rest IHr H. apply andb_true_iff in H as [H H4]. apply andb_true_iff in H as [H H3].
    apply andb_true_iff in H as [H1 H2]. destruct max; [discriminate H2|]. apply Z.leb_le in H1.
    rewrite IH, IHr by assumption. unfold in_range. replace (min <=? v) with true by lia. reflexivity.
  - intros tag since t IH rest IHr H. apply andb_true_iff in H as [H1 H2]. rewrite IH, IHr by assumption. reflexivity.
Qed.
Lemma errors_wf : well_formed error_code.
Proof. apply wfb_well_formed. vm_compute. reflexivity. Qed.
Lemma errors_all v : 0 <= v -> carries_all v error_code = true.
Proof. intros H. apply (all_lows v H). vm_compute. reflexivity. Qed.
Lemma errors_faithful : faithful (fun v => vcodec v error_code) (fits error_code).
Proof.
  intros v Hv. split; [|apply size_current].
  intros x rest F. exact (arrives_whole v _ errors_wf (errors_all v Hv) x rest F).
Qed.
Lemma error_seen v x : 0 <= v -> fits error_code x -> seen v error_code x = x.
Proof. intros Hv F. exact (proj1 (all_seen_identity v) error_code (errors_all v Hv) x F). Qed.

(** ** Answers *)
Lemma answers_wf a t : resp_ty a = Some t -> well_formed t.
Proof.
  intros E. apply wfb_well_formed. destruct a; cbn [resp_ty] in E; try discriminate E; injection E as <-; vm_compute; reflexivity.
Qed.
Lemma answer_arrives v a t corr x rest : resp_ty a = Some t -> in_s 32 corr -> fits t x ->
  c_dec (answer_codec v t) (c_enc (answer_codec v t) (corr, x) ++ rest) = Ok ((corr, seen v t x), rest)
  /\ c_size (answer_codec v t) (corr, x) = zlen (c_enc (answer_codec v t) (corr, x)) /\ is_bytes (c_enc (answer_codec v t) (corr, x)).
Proof.
  intros E C F. split.
  - unfold answer_codec, resp_codec. cbn [c_enc c_dec pair_codec fst snd]. rewrite <- app_assoc.
    destruct s4_lawful as (R & _). rewrite R by exact C. cbn [bind].
    rewrite (arrives_current v t (answers_wf a t E) x rest F). reflexivity.
  - destruct (sized_pair _ _ _ _ (lawful_sized _ _ s4_lawful) (size_current v t)) as [S B].
    split; [apply S|apply B]; split; assumption.
Qed.
Lemma answer_whole_now a t : In a answers_whole -> resp_ty a = Some t -> forall corr x rest, in_s 32 corr -> fits t x ->
  c_dec (answer_codec (version_for (listed false) a) t) (c_enc (answer_codec (version_for (listed false) a) t) (corr, x) ++ rest) = Ok ((corr, x), rest).
Proof.
  intros I E corr x rest C F. destruct (answer_arrives (version_for (listed false) a) a t corr x rest E C F) as (D & _). rewrite D.
  rewrite current_version. rewrite (proj1 (all_seen_identity (newest a)) t); [reflexivity| |exact F].
  cbn in I. repeat (destruct I as [<-|I]; [cbn [resp_ty] in E; injection E as <-; vm_compute; reflexivity|]). contradiction.
Qed.
Lemma produced_seen v index err base time start : 0 <= v -> fits error_code err ->
  seen v produced_partition (UT [UI index; err; UI base; UI time; UI start])
  = UT [UI index; err; UI base; UI (if 2 <=? v then time else 0); UI (if 5 <=? v then start else 0)].
Proof.
  intros Hv F. unfold produced_partition, struct, req, since. cbn [fields seen fseen as_t hd tl in_range].
  replace (0 <=? v) with true by lia. change (seen v error_code err) with (seen v error_code err).
  rewrite error_seen by assumption. destruct (2 <=? v), (5 <=? v); reflexivity.
Qed.

(** ** The answer for one partition *)
Lemma bytes_eqb_eq a b : bytes_eqb a b = true <-> a = b.
Proof.
  revert b. induction a as [|x a IH]; intros [|y b]; cbn [bytes_eqb]; split; intro H; try reflexivity; try discriminate H.
  - apply andb_true_iff in H as [H1 H2]. apply Z.eqb_eq in H1. apply IH in H2. congruence.
  - injection H as -> ->. rewrite Z.eqb_refl. apply IH. reflexivity.
Qed.
Lemma find_unique {A B} (k : A -> B) (f : A -> bool) (l : list A) (x : A) :
  (forall a, f a = true <-> k a = k x) -> NoDup (map k l) -> In x l -> find f l = Some x.
Proof.
  intros F. induction l as [|a l IH]; intros ND I; [contradiction|]. cbn [map find] in *.
  apply NoDup_cons_iff in ND as [NI ND]. destruct I as [->|I].
  - rewrite (proj2 (F x) eq_refl). reflexivity.
  - destruct (f a) eqn:Q; [|exact (IH ND I)]. exfalso. apply NI. apply F in Q. rewrite Q. apply in_map. exact I.
Qed.
Lemma produced_found topic index l p : listed_once 0 l -> answered 0 topic index l p -> produced topic index l = Some p.
Proof.
  intros (N1 & N2) (t & I & TN & IP & PI). unfold produced.
  rewrite (find_unique topic_name _ l t); [|intros a; rewrite TN; apply bytes_eqb_eq|exact N1|exact I].
  rewrite Forall_forall in N2. apply (find_unique (part_index 0)); [|exact (N2 t I)|exact IP].
  intros a. rewrite PI. apply Z.eqb_eq.
Qed.
Lemma produced_sound topic index l p : produced topic index l = Some p -> answered 0 topic index l p.
Proof.
  unfold produced. destruct (find _ l) as [t|] eqn:Q; [|discriminate]. intros E.
  apply find_some in Q as [Q1 Q2]. apply find_some in E as [E1 E2]. exists t.
  split; [exact Q1|]. split; [apply bytes_eqb_eq; exact Q2|]. split; [exact E1|apply Z.eqb_eq; exact E2].
Qed.
Lemma find_partition_sound topic index l p : find_partition topic index l = Some p -> answered 1 topic index l p.
Proof.
  induction l as [|t l IH]; cbn [find_partition]; [discriminate|].
  assert (answered 1 topic index l p -> answered 1 topic index (t :: l) p) as W.
  { intros (u & I & R). exists u. split; [right; exact I|exact R]. }
  destruct (bytes_eqb _ topic) eqn:Q; [|intros E; apply W, IH, E].
  destruct (find _ _) as [x|] eqn:G; [|intros E; apply W, IH, E].
  intros E. injection E as ->. apply find_some in G as [G1 G2]. exists t.
  split; [left; reflexivity|]. split; [apply bytes_eqb_eq; exact Q|]. split; [exact G1|apply Z.eqb_eq; exact G2].
Qed.
Lemma find_partition_found topic index l : (exists p, answered 1 topic index l p) -> find_partition topic index l <> None.
Proof.
  intros (p & t & I & TN & IP & PI). induction l as [|u l IH]; [contradiction|]. cbn [find_partition].
  destruct I as [->|I].
  - assert (bytes_eqb (as_s (nth 0 (as_t t) empty)) topic = true) as -> by (apply bytes_eqb_eq; exact TN).
    destruct (find _ _) as [x|] eqn:G; [discriminate|]. exfalso.
    pose proof (find_none _ _ G p IP) as H. cbv beta in H. apply Z.eqb_neq in H. exact (H PI).
  - destruct (bytes_eqb _ topic); [|exact (IH I)]. destruct (find _ _); [discriminate|exact (IH I)].
Qed.

(** ** After a failed request *)
Lemma put_all_extends l : forall buf, exists tail, fst (put_all buf l) = buf ++ tail.
Proof.
  induction l as [|m l IH]; intros buf; cbn [put_all]; [exists []; rewrite app_nil_r; reflexivity|].
  assert (exists t, fst (put_message buf m) = buf ++ t) as (t & Et).
  { unfold put_message. cbv zeta. destruct (message_enc _ _); eexists; reflexivity. }
  destruct (put_message buf m) as [b ok]. cbn [fst] in Et. subst b.
  destruct (IH (buf ++ t)) as (t' & E). destruct (put_all (buf ++ t) l) as [b' oks]. cbn [fst] in *.
  exists (t ++ t'). rewrite E, app_assoc. reflexivity.
Qed.
Lemma failed_size h r : message_ok (h, r) -> no_schemas r -> ~ short_timeout r -> 4 <= message_size h r.
Proof.
  intros (HO & _ & RO) NS ST. cbn [fst snd] in *. destruct r as [p|a x]; [|exfalso; apply ST; exact Logic.I].
  pose proof HO as (_ & HV & _). unfold message_size. destruct (rheader_sized 0) as [SH _]. rewrite (SH h HO).
  set (q := mkProduce (p_txn p) (p_committed p) (0, 0) (p_topics p) (p_modules p)).
  assert (produce_ok q) as QO.
  { destruct RO as (R1 & R2 & R3 & R4). unfold produce_ok, q. cbn [p_txn p_timeout p_topics p_modules fst snd]. split; [exact R1|]. split; [lia|]. split; [lia|exact R4]. }
  destruct (produce_carried (rh_version h) q [] (proj1 HV) QO) as (b & _ & E & _); [unfold nanos; cbn; lia|].
  destruct (produce_sized (rh_version h) q b (proj1 HV) QO NS E) as [S _]. pose proof (zlen_nonneg b).
  change (req_size (rh_version h) (RProduce p)) with (produce_size (rh_version h) q). rewrite <- S.
  enough (4 <= zlen (c_enc (rheader_codec 0) h)) by lia.
  unfold rheader_codec. rewrite via_enc. rewrite !fld_on by lia. cbn [c_enc pair_codec fst snd u16_codec u_codec i16_codec s_codec].
  set (rest := c_enc i32_codec _ ++ _). clearbody rest. unfold zlen. rewrite !app_length, !be_enc_length. lia.
Qed.
Lemma two_halves n rest : 0 <= n < 2 ^ 15 -> be_enc 4 n ++ rest = be_enc 2 0 ++ be_enc 2 n ++ rest.
Proof.
  intros H. rewrite app_assoc. f_equal. change (2 ^ 15) with 32768 in H.
  cbn.
  rewrite ?Z.div_small by lia. reflexivity.
Qed.
Lemma size_as_header n t h r : 0 <= n < 2 ^ 15 -> serve (be_enc 4 n ++ t) = Ok (h, r) -> rh_key h = key AProduce /\ rh_version h = n.
Proof.
  intros Hn. rewrite two_halves by exact Hn. unfold serve, rheader_codec. rewrite !fld_on by lia. rewrite via_dec.
  cbn [c_dec pair_codec]. destruct u2_lawful as (R1 & _). destruct s2_lawful as (R2 & _).
  change (be_enc 2 0) with (c_enc u16_codec 0). rewrite R1 by (unfold in_u; lia). cbn [bind].
  change (be_enc 2 n) with (c_enc i16_codec n). rewrite R2 by (unfold in_s; change (2 ^ (16 - 1)) with (2 ^ 15); lia). cbn [bind].
  destruct (c_dec i32_codec t) as [[c t1]|]; [|cbn [bind]; discriminate]. cbn [bind].
  lazymatch goal with |- context [@c_dec ?A ?c t1] => destruct (@c_dec A c t1) as [[s t2]|]; [|cbn [bind]; discriminate] end. cbn [bind rh_key rh_version].
  change (by_key 0) with (Some AProduce). cbv iota. cbn [rh_version].
  intros E. match type of E with bind ?x _ = _ => destruct x as [[q t3]|]; [|discriminate E] end. cbn [bind] in E.
  injection E as <- _. split; reflexivity.
Qed.
Lemma first_frame n buf fs c : 0 <= n < 2 ^ 31 - 4 -> drained (be_enc 4 n ++ buf) = (fs, c) ->
  fs = [] \/ exists fs', fs = ztake n buf :: fs'.
Proof.
  intros Hn. rewrite drained_step. unfold frame_dec.
  assert (zlen (be_enc 4 n) = 4) as Z4 by (unfold zlen; rewrite be_enc_length; reflexivity).
  rewrite zlen_app, Z4. pose proof (zlen_nonneg buf). replace (4 + zlen buf <? 4) with false by lia.
  rewrite i32_dec by lia. rewrite wrap_s_id by (try lia; unfold in_s; change (2 ^ (32 - 1)) with (2 ^ 31); lia).
  assert (as_usize (n + 4) = n + 4) as -> by (unfold as_usize; apply wrap_u_id; unfold in_u; change (2 ^ 31) with 2147483648 in Hn; change (2 ^ 64) with 18446744073709551616; lia).
  destruct (n + 4 <=? 4 + zlen buf); [|intros E; injection E as <- _; left; reflexivity].
  replace (n + 4 <? 4) with false by lia. destruct (drained _) as [fs' c']. intros E. apply (f_equal fst) in E. cbn [fst] in E. rewrite <- E. right. exists fs'. f_equal.
  rewrite ztake_app_ge by lia. rewrite Z4. replace (n + 4 - 4) with n by lia.
  rewrite zdrop_app_ge by lia. rewrite Z4. apply zdrop_neg. lia.
Qed.
Lemma after_failure failed m rest chunks frames c :
  message_ok failed -> no_schemas (snd failed) -> ~ short_timeout (snd failed) -> message_size (fst failed) (snd failed) < 2 ^ 31 - 4 ->
  message_ok m -> short_timeout (snd m) -> no_schemas (snd m) -> message_size (fst m) (snd m) < 2 ^ 15 ->
  concat chunks = fst (put_all [] (failed :: m :: rest)) -> receive (Waiting []) chunks = (frames, c) ->
  match taken frames with
  | [] => True
  | q :: _ => rh_key (fst q) = key AProduce /\ rh_version (fst q) = message_size (fst m) (snd m)
  end.
Proof.
  intros FO FN FT FS MO MT MN MS EC ER. destruct failed as [h r], m as [h' r']. cbn [fst snd] in *.
  pose proof (failed_size h r FO FN FT) as F4.
  destruct (message_arrives h' r' MO MT) as (b & _ & E & _). destruct (message_sized h' r' b MO MN E) as [S _]. pose proof (zlen_nonneg b) as Zb.
  rewrite (receive_split_independent chunks [concat chunks]) in ER by (cbn [concat]; rewrite app_nil_r; reflexivity).
  assert (exists tail, concat chunks = be_enc 4 (message_size h r) ++ be_enc 4 (message_size h' r') ++ tail) as (tail & ET).
  { rewrite EC. cbn [put_all]. destruct (put_message [] (h, r)) as [b1 ok1] eqn:P1.
    assert (b1 = be_enc 4 (message_size h r)) as ->.
    { unfold put_message in P1. cbn [fst snd] in P1. cbv zeta in P1.
      rewrite wrap_s_id in P1 by (try lia; unfold in_s; change (2 ^ (32 - 1)) with (2 ^ 31); lia).
      destruct (message_enc h r) as [x|e] eqn:Q; [exfalso; apply FT; apply (sent_iff h r FO); eauto|]. injection P1 as <- _. reflexivity. }
    destruct (put_message (be_enc 4 (message_size h r)) (h', r')) as [b2 ok2] eqn:P2.
    unfold put_message in P2. cbn [fst snd] in P2. cbv zeta in P2. rewrite E in P2.
    rewrite wrap_s_id in P2 by (try lia; unfold in_s; change (2 ^ (32 - 1)) with 2147483648; rewrite <- S in *; change (2 ^ 15) with 32768 in MS; lia).
    injection P2 as <- _.
    destruct (put_all_extends rest (be_enc 4 (message_size h r) ++ be_enc 4 (message_size h' r') ++ b)) as (t & X).
    destruct (put_all _ rest) as [b3 oks]. cbn [fst] in *. exists (b ++ t). rewrite X, <- !app_assoc. reflexivity. }
  cbn [receive on_read app] in ER. rewrite ET in ER. fold (drained (be_enc 4 (message_size h r) ++ be_enc 4 (message_size h' r') ++ tail)) in ER.
  destruct (drained _) as [fs c1] eqn:D. rewrite app_nil_r in ER. injection ER as -> ->.
  destruct (first_frame _ _ _ _ (conj (Z.le_trans 0 4 _ ltac:(lia) F4) FS) D) as [->|(fs' & ->)]; [exact Logic.I|].
  cbn [taken]. rewrite ztake_app_ge by (unfold zlen; rewrite be_enc_length; lia).
  destruct (serve _) as [[h1 r1]|e] eqn:V; [|exact Logic.I]. cbn [fst].
  apply (size_as_header (message_size h' r')) in V; [exact V|]. rewrite <- S in *. split; [exact Zb|exact MS].
Qed.

(** ** Start offsets *)
Lemma fetched v s topic index : 0 <= v -> str_ok topic -> in_u 32 index -> led_ok s ->
  fetch_offsets v s topic index = Ok (offset_answer s topic index).
Proof.
  intros Hv TO IO LO. unfold fetch_offsets.
  assert (fits offsets_req (offsets_of [(topic, [index])])) as FQ.
  { split; [|split; exact Logic.I]. split; [|cbn; lia]. constructor; [|constructor].
    split; [exact TO|]. split; [|exact Logic.I]. split; [|cbn; lia]. constructor; [|constructor]. split; [exact IO|exact Logic.I]. }
  pose proof (arrives_current v offsets_req (requests_wf AFetchOffsets) _ [] FQ) as D. rewrite app_nil_r in D. rewrite D. cbn [bind].
  assert (read_offsets (seen v offsets_req (offsets_of [(topic, [index])])) = [(topic, [index])]) as ->.
  { unfold offsets_req, offsets_topic, struct, req, MessageModel.between.
    cbn [fields seen fseen as_t hd tl in_range offsets_of map fst snd as_l]. replace (0 <=? v) with true by lia. reflexivity. }
  assert (fits error_code no_error) as NE by (apply fitsb_fits; vm_compute; reflexivity).
  assert (fits error_code not_leader) as NL by (apply fitsb_fits; vm_compute; reflexivity).
  assert (fits offsets_partition (offset_answer s topic index)) as FP.
  { unfold offset_answer. destruct (s topic index) as [[a b]|] eqn:Q.
    - destruct (LO _ _ _ _ Q) as [L1 L2]. split; [exact NE|]. split; [exact IO|].
      assert (in_s 64 a /\ in_s 64 b) as [A B] by (unfold in_s; change (2 ^ (64 - 1)) with (2 ^ 63); lia).
      split; [exact A|]. split; [exact B|exact Logic.I].
    - split; [exact NL|]. split; [exact IO|]. assert (in_s 64 0) as A by (unfold in_s; change (2 ^ (64 - 1)) with (2 ^ 63); lia).
      split; [exact A|]. split; [exact A|exact Logic.I]. }
  assert (fits offsets_resp (handle_offsets s [(topic, [index])])) as FR.
  { cbn [handle_offsets map fst snd]. split; [|exact Logic.I]. split; [|cbn; lia]. constructor; [|constructor].
    split; [exact TO|]. split; [|exact Logic.I]. split; [|cbn; lia]. constructor; [exact FP|constructor]. }
  assert (carries_all v offsets_resp = true) as CA by (apply (all_lows v Hv); vm_compute; reflexivity).
  pose proof (arrives_whole v offsets_resp (answers_wf AFetchOffsets _ eq_refl) CA _ [] FR) as D2.
  rewrite app_nil_r in D2. rewrite D2. cbn [bind handle_offsets map as_t nth as_l fst snd find_partition as_s].
  rewrite (proj2 (bytes_eqb_eq topic topic) eq_refl). cbn [find].
  replace (as_i (nth 1 (as_t (offset_answer s topic index)) zero) =? index) with true; [reflexivity|].
  unfold offset_answer. destruct (s topic index) as [[a b]|]; cbn; symmetry; apply Z.eqb_refl.
Qed.
Lemma start_at_leader v s topic index q stored start hw : 0 <= v -> str_ok topic -> in_u 32 index -> led_ok s ->
  s topic index = Some (start, hw) -> start_asked v s topic index q stored = ConsumerModel.resolve q start hw (ConsumerModel.consumer_position stored).
Proof.
  intros Hv TO IO LO E. unfold start_asked. rewrite fetched by assumption. unfold offset_answer. rewrite E. reflexivity.
Qed.
Lemma start_inside v s topic index q stored start hw : 0 <= v -> str_ok topic -> in_u 32 index -> led_ok s ->
  s topic index = Some (start, hw) -> ConsumerSpec.log_range start hw -> ConsumerSpec.stored_ok stored -> ConsumerSpec.relative q ->
  exists x, start_asked v s topic index q stored = Ok x /\ start <= x <= hw
    /\ (start <= ConsumerSpec.named q start hw stored <= hw -> x = ConsumerSpec.named q start hw stored).
Proof.
  intros Hv TO IO LO E LR SO RE. rewrite (start_at_leader _ _ _ _ _ _ _ _ Hv TO IO LO E).
  destruct (ConsumerProofs.resolve_inside q start hw stored LR SO RE) as (x & R & B & N & _). eauto.
Qed.
Lemma start_elsewhere v s topic index q stored : 0 <= v -> str_ok topic -> in_u 32 index -> led_ok s ->
  s topic index = None -> ConsumerSpec.stored_ok stored -> ConsumerSpec.relative q -> start_asked v s topic index q stored = Ok 0.
Proof.
  intros Hv TO IO LO E SO RE. unfold start_asked. rewrite fetched by assumption. unfold offset_answer. rewrite E. cbn [bind as_t nth as_i zero].
  assert (ConsumerSpec.log_range 0 0) as LR by (unfold ConsumerSpec.log_range; lia).
  destruct (ConsumerProofs.resolve_inside q 0 0 stored LR SO RE) as (x & R & B & _). rewrite R. f_equal. lia.
Qed.

(** ** Long error texts *)
Lemma long_dec text rest : 2 ^ 15 <= zlen text < 2 ^ 16 -> c_dec string_codec (c_enc string_codec text ++ rest) = Ok ([], text ++ rest).
Proof.
  intros H. change (2 ^ 15) with 32768 in H. change (2 ^ 16) with 65536 in H. cbn [c_dec c_enc string_codec]. unfold string_dec.
  rewrite <- app_assoc.
  assert (be_enc 2 (wrap_u 16 (zlen text)) = be_enc 2 (zlen text - 65536)) as ->.
  { rewrite wrap_u_id by (unfold in_u; lia). unfold be_enc.
    replace (zlen text - 65536) with (zlen text + (-256) * 256) by lia.
    change (256 ^ Z.of_nat 1) with 256. change (256 ^ Z.of_nat 0) with 1. rewrite !Z.div_1_r, Z.div_add, Z.mod_add by lia.
    replace (zlen text / 256 + -256) with (zlen text / 256 + (-1) * 256) by lia. rewrite Z.mod_add by lia. reflexivity. }
  destruct s2_lawful as (R & _). change (be_enc 2 (zlen text - 65536)) with (c_enc i16_codec (zlen text - 65536)).
  rewrite R by (unfold in_s; change (2 ^ (16 - 1)) with 32768; lia). cbn [bind].
  replace (zlen text - 65536 <=? 0) with true by lia. reflexivity.
Qed.
Lemma chain_dec v text rest : 0 <= v -> 2 ^ 15 <= zlen text < 2 ^ 16 ->
  c_dec (vcodec v error_code) (c_enc (vcodec v error_code) (chain_error text) ++ rest) = Ok (chain_error [], text ++ rest).
Proof.
  intros Hv H. unfold error_code. cbn [vcodec c_enc c_dec chain_error as_tag as_pay].
  assert (forall vs, vs = variants (map (fun t => (t, 0, t_unit)) plain_errors ++ full_errors) ->
            ncodec v vs 6005 = Some (vcodec v (struct [str_field]))) as N by (intros vs ->; reflexivity).
  remember (variants (map (fun t => (t, 0, t_unit)) plain_errors ++ full_errors)) as vs eqn:V. rewrite (N vs eq_refl).
  rewrite <- app_assoc. destruct (int_lawful I16) as (R & _). rewrite R by (unfold int_ok, in_s; change (2 ^ (16 - 1)) with 32768; lia). cbn [bind]. rewrite (N vs eq_refl).
  unfold struct, str_field, always. cbn [fields vcodec]. rewrite via_enc, via_dec.
  cbn [c_enc c_dec fcodec as_t in_range hd tl]. replace (- 2 ^ 15 <=? v) with true by lia.
  cbn [vcodec leaf_codec t_str]. rewrite via_enc, via_dec, app_nil_r. cbn [as_s]. rewrite long_dec by exact H. reflexivity.
Qed.
Lemma text_lost v index text base time start : 5 <= v -> in_u 32 index -> is_bytes text -> 2 ^ 15 <= zlen text < 2 ^ 16 ->
  exists t s rest, c_dec (vcodec v produced_partition)
    (c_enc (vcodec v produced_partition) (UT [UI index; chain_error text; UI base; UI time; UI start]))
  = Ok (UT [UI index; chain_error []; UI (wrap_s 64 (be_val (firstn 8 text))); UI t; UI s], rest).
Proof.
  intros Hv IO BO H. unfold produced_partition, struct, req, since. cbn [fields vcodec]. rewrite via_enc, via_dec.
  cbn [c_enc c_dec fcodec as_t in_range hd tl]. 
  replace (0 <=? v) with true by lia. replace (2 <=? v) with true by lia. replace (5 <=? v) with true by lia.
  cbn [t_u32 t_i64 vcodec leaf_codec]. rewrite !via_enc, !via_dec. cbn [as_i int_codec].
  destruct u4_lawful as (R & _). rewrite R by exact IO. cbn [bind].
  fold error_code. rewrite chain_dec by (lia || exact H). cbn [bind].
  assert (exists a b c d, text = a ++ b ++ c ++ d /\ length a = 8%nat /\ length b = 8%nat /\ length c = 8%nat) as (a & b & c & d & -> & La & Lb & Lc).
  { exists (firstn 8 text), (firstn 8 (skipn 8 text)), (firstn 8 (skipn 8 (skipn 8 text))), (skipn 8 (skipn 8 (skipn 8 text))).
    change (2 ^ 15) with 32768 in H. unfold zlen in H. rewrite !firstn_skipn. split; [reflexivity|]. rewrite !firstn_length, !skipn_length. lia. }
  assert (forall x r, length x = 8%nat -> c_dec i64_codec (x ++ r) = Ok (wrap_s 64 (be_val x), r)) as D8.
  { intros x r L. cbn [c_dec i64_codec s_codec]. rewrite take_bytes_app by exact L. reflexivity. }
  rewrite <- !app_assoc. rewrite via_dec, D8 by exact La. cbn [bind]. rewrite via_dec, D8 by exact Lb. cbn [bind]. rewrite via_dec, D8 by exact Lc. cbn [bind].
  assert (firstn 8 (a ++ b ++ c ++ d) = a) as -> by (rewrite <- La, firstn_app, Nat.sub_diag, firstn_all; cbn [firstn]; apply app_nil_r).
  do 3 eexists. reflexivity.
Qed.

(** ** Examples *)
Definition a_batch : batch bytes := mkBatch 0 0 (mkHdr 0 2 0 0 0 0 0 (-1) (-1) (-1)) 0 [12; 0; 0; 0; 0; 1; 97; 0].
Definition a_produce : rheader * request :=
  (mkRheader 0 25 7 [99], RProduce (mkProduce None true (1, 1500000) [([116], [(0, [a_batch]); (3, [])])] [])).
Lemma a_batch_ok : raw_batch_ok a_batch /\ has_schema (b_hdr a_batch) = false.
Proof.
  split; [|reflexivity]. unfold raw_batch_ok, batch_ok, header_ok. cbn [a_batch b_base b_schema b_hdr b_recs].
  repeat split; try (vm_compute; congruence). repeat constructor; unfold is_byte; lia.
Qed.
Lemma a_produce_ok : message_ok a_produce /\ short_timeout (snd a_produce) /\ no_schemas (snd a_produce).
Proof.
  destruct a_batch_ok as [BO BS]. split; [|split].
  - split; [|split; [reflexivity|]]; [repeat split; try (vm_compute; congruence); repeat constructor; unfold is_byte; lia|].
    cbn [snd a_produce request_ok]. unfold produce_ok. cbn [p_txn p_timeout p_topics p_modules fst snd].
    split; [exact Logic.I|]. split; [lia|]. split; [lia|]. split; [|split; [constructor|rewrite zlen_nil; lia]].
    split; [|vm_compute; reflexivity]. constructor; [|constructor]. split; [split; [vm_compute; reflexivity|vm_compute; reflexivity]|].
    cbn [fst snd]. split; [|vm_compute; reflexivity]. apply Forall_cons; [|apply Forall_cons; [|apply Forall_nil]]; unfold part_ok; cbn [fst snd].
    + split; [unfold in_u; lia|]. split; [|vm_compute; reflexivity]. apply Forall_cons; [exact BO|apply Forall_nil].
    + split; [unfold in_u; lia|]. split; [apply Forall_nil|vm_compute; reflexivity].
  - cbn. lia.
  - repeat constructor.
Qed.
Lemma a_connection : connected [a_produce; next_; a_produce].
Proof.
  destruct a_produce_ok as (A & B & C).
  assert (message_size (fst a_produce) (snd a_produce) < 2 ^ 31 - 4) as D by (vm_compute; reflexivity).
  constructor; [auto|]. constructor; [exact (Forall_inv next_connected)|]. constructor; [auto|constructor].
Qed.
Definition demo_led : led := fun topic index => if bytes_eqb topic [116] && (index =? 0) then Some (10, 100) else None.
Lemma demo_led_ok : led_ok demo_led.
Proof.
  intros topic index start hw. unfold demo_led. destruct (_ && _); [|discriminate]. intros E. injection E as <- <-. lia.
Qed.

Lemma long_text : exists text, is_bytes text /\ 2 ^ 15 <= zlen text < 2 ^ 16.
Proof.
  exists (repeat 97 (Z.to_nat (2 ^ 15))). split.
  - apply Forall_forall. intros b B. apply repeat_spec in B. subst b. unfold is_byte. lia.
  - unfold zlen. rewrite repeat_length, Z2Nat.id by lia. lia.
Qed.

(** The ranges of offsets and session ids. *)
Lemma commit_range o n : fits update_consumer_req (UT [UI o; UI n]) <-> in_s 64 o /\ in_u 32 n.
Proof. split; [intros (A & B & _); split; assumption|]. intros [A B]. split; [exact A|]. split; [exact B|exact Logic.I]. Qed.
Lemma update_range l : zlen l < 2 ^ 31 ->
  fits update_req (UT [UL (map (fun e => UT [UI (fst e); UI (snd e)]) l)]) <-> Forall (fun e => in_s 64 (fst e) /\ in_u 32 (snd e)) l.
Proof.
  intros L. assert (zlen (map (fun e => UT [UI (fst e); UI (snd e)]) l) < 2 ^ 31) as L' by (unfold zlen in *; rewrite map_length; exact L).
  split.
  - intros ((F & _) & _). clear L L'. induction l as [|[o n] l IH]; [constructor|]. pose proof (Forall_inv F) as (A & B & _).
    constructor; [split; assumption|apply IH, (Forall_inv_tail F)].
  - intros F. split; [|exact Logic.I]. split; [|exact L']. clear L L'. induction F as [|[o n] l [A B] F IH]; [constructor|].
    constructor; [|exact IH]. split; [exact A|]. split; [exact B|exact Logic.I].
Qed.
Lemma produced_range index err base time start : fits produced_partition (UT [UI index; err; UI base; UI time; UI start])
  <-> in_u 32 index /\ fits error_code err /\ in_s 64 base /\ in_s 64 time /\ in_s 64 start.
Proof. split; [intros (A & B & C & D & E & _); auto|]. intros (A & B & C & D & E). exact (conj A (conj B (conj C (conj D (conj E Logic.I))))). Qed.
