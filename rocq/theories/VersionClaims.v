(** From the lemmas about all versioned types to the statements of the
    properties, and the messages of MessageModel. *)
From Verif Require Import Base WireModel WireSpec WireProofs ListFacts VersionModel VersionSpec VersionProofs MessageModel MessageSpec.

Lemma answer_between rs rr v t : speaks rs v -> speaks rr v -> well_formed t ->
  answers (vcodec v (cut rs t)) (vcodec v (cut rr t)) (fits (cut rs t))
    (variants_known rs rr v t) (received rs rr v t).
Proof. intros Hs Hr W. exact (proj1 (all_answer rs rr v Hs Hr) t W). Qed.

Lemma arrives_current v t : well_formed t ->
  arrives_as (vcodec v t) (vcodec v t) (fits t) (seen v t).
Proof.
  intros W x rest F. pose proof (answer_between None None v t Logic.I Logic.I W) as A.
  rewrite (proj1 all_cut_current t W) in A. rewrite (A x rest F).
  rewrite (proj1 (all_known_by_current None v) t x), (proj1 (all_received_current v) t x W). reflexivity.
Qed.

Lemma size_current v t : size_exact (vcodec v t) (fits t) /\ emits_bytes (vcodec v t) (fits t).
Proof. exact (proj1 (all_sized v) t). Qed.

Lemma arrives_whole v t : well_formed t -> carries_all v t = true ->
  arrives_as (vcodec v t) (vcodec v t) (fits t) (fun x => x).
Proof.
  intros W C x rest F. rewrite (arrives_current v t W x rest F).
  rewrite (proj1 (all_seen_identity v) t C x F). reflexivity.
Qed.

Lemma from_older rs v t : speaks rs v -> well_formed t ->
  arrives_as (vcodec v (cut rs t)) (vcodec v t) (fits (cut rs t)) (received rs None v t).
Proof.
  intros S W x rest F. pose proof (answer_between rs None v t S Logic.I W) as A.
  rewrite (proj1 all_cut_current t W) in A. rewrite (A x rest F).
  rewrite (proj1 (all_known_by_current rs v) t x). reflexivity.
Qed.

Lemma to_older rr v t x rest : speaks rr v -> well_formed t -> fits t x ->
  c_dec (vcodec v (cut rr t)) (c_enc (vcodec v t) x ++ rest)
  = if variants_known None rr v t x then Ok (received None rr v t x, rest) else Err InvalidData.
Proof.
  intros S W F. pose proof (answer_between None rr v t Logic.I S W) as A.
  rewrite (proj1 all_cut_current t W) in A. exact (A x rest F).
Qed.

(** ** Checking that a concrete value has a type *)

Definition int_okb (k : ikind) (n : Z) : bool :=
  match k with
  | U8 => (0 <=? n) && (n <? 2 ^ 8) | U16 => (0 <=? n) && (n <? 2 ^ 16)
  | U32 => (0 <=? n) && (n <? 2 ^ 32) | U64 => (0 <=? n) && (n <? 2 ^ 64)
  | I8 => (- 2 ^ 7 <=? n) && (n <? 2 ^ 7) | I16 => (- 2 ^ 15 <=? n) && (n <? 2 ^ 15)
  | I32 => (- 2 ^ 31 <=? n) && (n <? 2 ^ 31) | I64 => (- 2 ^ 63 <=? n) && (n <? 2 ^ 63)
  end.
Lemma int_okb_ok k n : int_okb k n = true -> int_ok k n.
Proof.
  unfold int_okb, int_ok, in_u, in_s; destruct k; cbn; intro H;
    apply andb_true_iff in H; destruct H as [H1 H2]; apply Z.leb_le in H1; apply Z.ltb_lt in H2; lia.
Qed.

Definition strb (s : bytes) : bool := utf8_valid s && (zlen s <? 2 ^ 15).
Definition bufb (s : bytes) : bool := forallb (fun b => (0 <=? b) && (b <? 256)) s && (zlen s <? 2 ^ 32).
Lemma strb_ok s : strb s = true -> str_ok s.
Proof. unfold strb, str_ok. intro H. apply andb_true_iff in H. destruct H as [H1 H2]. apply Z.ltb_lt in H2. split; assumption. Qed.
Lemma bufb_ok s : bufb s = true -> buf_ok s.
Proof.
  unfold bufb, buf_ok, is_bytes, is_byte. intro H. apply andb_true_iff in H. destruct H as [H1 H2]. apply Z.ltb_lt in H2.
  split; [|assumption]. apply Forall_forall. intros b Hb. rewrite forallb_forall in H1.
  specialize (H1 b Hb). apply andb_true_iff in H1. destruct H1 as [A B]. apply Z.leb_le in A. apply Z.ltb_lt in B. lia.
Qed.

Definition leafb (l : leaf) (x : uval) : bool :=
  match l, x with
  | LInt k, UI n => int_okb k n
  | LBool, UB _ => true
  | LVarint, UI n => int_okb I32 n
  | LStr, US s => strb s
  | LBuf, US s => bufb s
  | LDur, UD s n => int_okb U64 s && (0 <=? n) && (n <? 10 ^ 9)
  | LData, US s => bufb s && (zlen s <? 2 ^ 31)
  | _, _ => false
  end.
Lemma leafb_ok l x : leafb l x = true -> leaf_ok l x.
Proof.
  destruct l, x; cbn [leafb leaf_ok]; try discriminate; intro H.
  - exact (int_okb_ok _ _ H).
  - exact Logic.I.
  - exact (int_okb_ok I32 _ H).
  - exact (strb_ok _ H).
  - exact (bufb_ok _ H).
  - apply andb_true_iff in H. destruct H as [H C]. apply andb_true_iff in H. destruct H as [A B].
    apply Z.leb_le in B. apply Z.ltb_lt in C. split; [exact (int_okb_ok U64 _ A)|cbn; lia].
  - apply andb_true_iff in H. destruct H as [A B]. apply bufb_ok in A. apply Z.ltb_lt in B. split; [apply A|exact B].
Qed.

(** Maps with at most one entry only. *)
Fixpoint fitsb (t : vty) (x : uval) {struct t} : bool :=
  match t, x with
  | VLeaf l, _ => leafb l x
  | VOpt t, UO o => match o with Some a => fitsb t a | None => true end
  | VVec t, UL l => forallb (fitsb t) l && (zlen l <? 2 ^ 31)
  | VMap _ _, UM [] => true
  | VMap (KInt i) t, UM [(UI n, y)] => int_okb i n && fitsb t y
  | VMap KStr t, UM [(US s, y)] => strb s && fitsb t y
  | VStruct fs, UT xs => ffitsb fs xs
  | VEnum k vs, UE tag y => int_okb k tag && nfitsb vs tag y
  | _, _ => false
  end
with ffitsb (fs : vfields) (xs : list uval) {struct fs} : bool :=
  match fs, xs with
  | FNil, [] => true
  | FCons _ _ _ t rest, x :: xs => fitsb t x && ffitsb rest xs
  | _, _ => false
  end
with nfitsb (vs : vvars) (tag : Z) (y : uval) {struct vs} : bool :=
  match vs with
  | NNil => false
  | NCons tg _ t rest => if tg =? tag then fitsb t y else nfitsb rest tag y
  end.

Lemma all_fitsb :
  (forall t x, fitsb t x = true -> fits t x)
  /\ (forall fs xs, ffitsb fs xs = true -> ffits fs xs)
  /\ (forall vs tag y, nfitsb vs tag y = true -> nfits vs tag y).
Proof.
  apply vty_all_ind.
  - intros l x H. exact (leafb_ok l x H).
  - intros t IH x H. destruct x; try discriminate. cbn in *. destruct o; [exact (IH _ H)|exact Logic.I].
  - intros t IH x H. destruct x; try discriminate. cbn [fitsb fits] in *. apply andb_true_iff in H.
    destruct H as [H1 H2]. apply Z.ltb_lt in H2. split; [|assumption].
    apply Forall_forall. intros a Ha. rewrite forallb_forall in H1. exact (IH a (H1 a Ha)).
  - intros k t IH x H. destruct x; try (destruct k; discriminate).
    destruct m as [|[a y] m]; [cbn; split; [constructor|split; [exact Logic.I|reflexivity]]|].
    destruct m as [|e m].
    2:{ destruct k; cbn [fitsb] in H; destruct a; discriminate. }
    destruct k; cbn [fitsb] in H; destruct a; try discriminate;
      apply andb_true_iff in H; destruct H as [H1 H2]; cbn [fits];
      (split; [constructor; [split; [cbn; first [exact (int_okb_ok _ _ H1)|exact (strb_ok _ H1)]|exact (IH _ H2)]|constructor]
              |split; [cbn; split; [intros ? []|exact Logic.I]|reflexivity]]).
  - intros fs IH x H. destruct x; try discriminate. exact (IH _ H).
  - intros k vs IH x H. destruct x; try discriminate. cbn [fitsb fits] in *. apply andb_true_iff in H.
    destruct H as [H1 H2]. split; [exact (int_okb_ok _ _ H1)|exact (IH _ _ H2)].
  - intros xs H. destruct xs; [exact Logic.I|discriminate].
  - intros mn mx d t IHt r IHr xs H. destruct xs; [discriminate|]. cbn [ffitsb ffits] in *. apply andb_true_iff in H.
    destruct H as [H1 H2]. split; [exact (IHt _ H1)|exact (IHr _ H2)].
  - intros tag y H. discriminate.
  - intros tg s t IHt r IHr tag y H. cbn [nfitsb nfits] in *. destruct (tg =? tag); [exact (IHt _ H)|exact (IHr _ _ H)].
Qed.
Lemma fitsb_fits t x : fitsb t x = true -> fits t x.
Proof. exact (proj1 all_fitsb t x). Qed.

Fixpoint wfb (t : vty) : bool :=
  match t with
  | VLeaf _ => true
  | VOpt t | VVec t | VMap _ t => wfb t
  | VStruct fs => fwfb fs
  | VEnum _ vs => nwfb vs
  end
with fwfb (fs : vfields) : bool :=
  match fs with
  | FNil => true
  | FCons _ _ d t rest => fitsb t d && wfb t && fwfb rest
  end
with nwfb (vs : vvars) : bool :=
  match vs with
  | NNil => true
  | NCons tag _ t rest => negb (has_tag rest tag) && wfb t && nwfb rest
  end.
Lemma all_wfb :
  (forall t, wfb t = true -> well_formed t) /\ (forall fs, fwfb fs = true -> fwell_formed fs)
  /\ (forall vs, nwfb vs = true -> nwell_formed vs).
Proof.
  apply vty_all_ind; cbn [wfb well_formed fwfb fwell_formed nwfb nwell_formed]; auto.
  - intros mn mx d t IHt r IHr H. apply andb_true_iff in H. destruct H as [H C]. apply andb_true_iff in H. destruct H as [A B].
    split; [exact (fitsb_fits _ _ A)|split; [exact (IHt B)|exact (IHr C)]].
  - intros tg s t IHt r IHr H. apply andb_true_iff in H. destruct H as [H C]. apply andb_true_iff in H. destruct H as [A B].
    apply negb_true_iff in A. split; [exact A|split; [exact (IHt B)|exact (IHr C)]].
Qed.
Lemma wfb_well_formed t : wfb t = true -> well_formed t.
Proof. exact (proj1 all_wfb t). Qed.

Lemma messages_well_formed m : well_formed (msg_ty m).
Proof. apply wfb_well_formed. destruct m; vm_compute; reflexivity. Qed.

(** ** Nothing new is lost the second time *)
Lemma all_seen_again v :
  (forall t x, seen v t (seen v t x) = seen v t x)
  /\ (forall fs xs, fseen v fs (fseen v fs xs) = fseen v fs xs)
  /\ (forall vs tag y, nseen v vs tag (nseen v vs tag y) = nseen v vs tag y).
Proof.
  apply vty_all_ind; cbn [seen fseen nseen as_o as_l as_m as_t as_tag as_pay hd tl].
  - reflexivity.
  - intros t IH x. destruct (as_o x); cbn; [rewrite IH|]; reflexivity.
  - intros t IH x. rewrite map_map. f_equal. apply map_ext. intro a. apply IH.
  - intros k t IH x. rewrite map_map. f_equal. apply map_ext. intros [a b]. cbn. rewrite IH. reflexivity.
  - intros fs IH x. rewrite IH. reflexivity.
  - intros k vs IH x. rewrite IH. reflexivity.
  - reflexivity.
  - intros mn mx d t IHt r IHr xs. rewrite IHr. destruct (in_range mn mx v); [rewrite IHt|]; reflexivity.
  - reflexivity.
  - intros tg s t IHt r IHr tag y. destruct (tg =? tag); auto.
Qed.

(** ** Types in which nothing changes between two versions *)
Fixpoint steady (v w : Z) (t : vty) : bool :=
  match t with
  | VLeaf _ => true
  | VOpt t | VVec t | VMap _ t => steady v w t
  | VStruct fs => fsteady v w fs
  | VEnum _ vs => nsteady v w vs
  end
with fsteady (v w : Z) (fs : vfields) : bool :=
  match fs with
  | FNil => true
  | FCons min max _ t rest => Bool.eqb (in_range min max v) (in_range min max w) && steady v w t && fsteady v w rest
  end
with nsteady (v w : Z) (vs : vvars) : bool :=
  match vs with
  | NNil => true
  | NCons _ _ t rest => steady v w t && nsteady v w rest
  end.
Lemma all_steady v w :
  (forall t, steady v w t = true -> forall x, same_layout v w t x)
  /\ (forall fs, fsteady v w fs = true -> forall xs, fsame_layout v w fs xs)
  /\ (forall vs, nsteady v w vs = true -> forall tag y, nsame_layout v w vs tag y).
Proof.
  apply vty_all_ind; cbn [steady fsteady nsteady same_layout fsame_layout nsame_layout]; auto.
  - intros t IH H x. destruct (as_o x); auto.
  - intros t IH H x. apply Forall_forall. intros a _. exact (IH H a).
  - intros k t IH H x. apply Forall_forall. intros a _. exact (IH H (snd a)).
  - intros mn mx d t IHt r IHr H xs. apply andb_true_iff in H. destruct H as [H C]. apply andb_true_iff in H. destruct H as [A B].
    apply Bool.eqb_prop in A. split; [exact A|split; [intros _; exact (IHt B _)|exact (IHr C _)]].
  - intros tg s t IHt r IHr H tag y. apply andb_true_iff in H. destruct H as [A B].
    destruct (tg =? tag); auto.
Qed.
