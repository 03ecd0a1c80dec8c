(** Proofs of the claims about WaitModel. *)
From Verif Require Import Base WaitModel WaitSpec WaitProofs.

(** * Writing, when nobody else does *)
Definition new_obj (v0 : option wobj) (sp : Z) : wobj :=
  match v0 with None => mkW 0 sp 0 | Some o => mkW (w_rev o + 1) sp (w_status o) end.
Definition JW (k sp : Z) (v0 : option wobj) (v : view) (p : phase) : Prop :=
  let seen0 := option_map w_rev v0 in
  let new := new_obj v0 sp in
  (v = mkV v0 [] v0 [] /\ (p = PNew \/ p = PDone AnsRefused \/ p = PRead (AUpdateSpec k sp) \/ p = PSend (AUpdateSpec k sp) seen0)) \/
  (v = mkV v0 [] v0 [AUpdateSpec k sp] /\ ((exists m, p = PCheck seen0 m \/ p = PWait seen0 m) \/ p = PDone AnsTimeout)) \/
  (v_kv v = Some new /\ v_qu v = [] /\ (v_st v = v0 \/ v_st v = Some new) /\ (forall e, In e (v_ev v) -> e = EMod k new) /\
   (v_st v = Some new \/ v_ev v <> []) /\
   ((exists m, p = PCheck seen0 m \/ p = PWait seen0 m) \/ p = PDone AnsTimeout \/ (p = PDone AnsOk /\ v_st v = Some new))).

Lemma new_spec : forall v0 sp, w_spec (new_obj v0 sp) = sp.
Proof. intros [o|] sp; reflexivity. Qed.
Lemma new_newer : forall v0 sp, mod1 v0 (new_obj v0 sp) = Some (new_obj v0 sp).
Proof. intros [o|] sp; [|reflexivity]. cbn. destruct (Z.ltb_spec (w_rev o + 1) (w_rev o)); [lia|reflexivity]. Qed.
Lemma new_again : forall v0 sp, mod1 (Some (new_obj v0 sp)) (new_obj v0 sp) = Some (new_obj v0 sp).
Proof. intros. cbn. destruct (_ <? _); reflexivity. Qed.
Lemma sync_mod1 : forall o st, sync_key (Some o) st = mod1 st o.
Proof. intros o [c|]; reflexivity. Qed.
Lemma sync_self : forall v, sync_key v v = v.
Proof. intros [o|]; [|reflexivity]. cbn. rewrite Z.ltb_irrefl. reflexivity. Qed.
Lemma found_old : forall m k q v0, is_write q -> m k = v0 -> found m k q (option_map w_rev v0) = false.
Proof.
  intros m k q v0 W E. unfold found. rewrite E. destruct q; try contradiction; destruct v0; cbn; try reflexivity; apply Z.ltb_irrefl.
Qed.
Lemma found_new : forall m k q v0 sp, is_write q -> m k = Some (new_obj v0 sp) -> found m k q (option_map w_rev v0) = true.
Proof.
  intros m k q v0 sp W E. unfold found. rewrite E. destruct q; try contradiction; destruct v0; cbn; try reflexivity; apply Z.ltb_lt; lia.
Qed.
Lemma begin_write : forall m k q v0 sp, m k = v0 -> wanted q v0 = Some sp ->
  begin m k q = PDone AnsRefused \/ begin m k q = PRead (AUpdateSpec k sp).
Proof.
  intros m k q v0 sp E W. unfold begin. rewrite E. destruct q; cbn in W; try discriminate.
  - injection W as ->. destruct v0; auto.
  - injection W as ->. auto.
  - destruct v0; [|discriminate]. injection W as <-. auto.
Qed.

Lemma JW_step : forall k q v0 sp, wanted q v0 = Some sp ->
  forall b v p v' p', JW k sp v0 v p -> vstep k q b (v, p) (v', p') -> b = false -> JW k sp v0 v' p'.
Proof.
  intros k q v0 sp W b v p v' p' J V B. subst b.
  assert (IW : is_write q) by (destruct q; cbn in *; [exact I|exact I|exact I|discriminate]).
  destruct J as [[-> P]|[[-> P]|[K [Q [S [E [N P]]]]]]].
  - inversion V; subst; cbn [v_kv v_ev v_st v_qu] in *; try discriminate.
    + left. auto.
    + rewrite sync_self. left. auto.
    + left. split; [reflexivity|]. match goal with H : m k = _ |- _ => destruct (begin_write _ _ _ _ _ H W) as [-> | ->] end; auto.
    + left. split; [reflexivity|]. destruct P as [P|[P|[P|P]]]; try discriminate. injection P as ->. auto.
    + right. left. destruct P as [P|[P|[P|P]]]; try discriminate. injection P as -> ->. split; [reflexivity|]. left. exists 0. auto.
    + destruct P as [P|[P|[P|P]]]; discriminate.
    + destruct P as [P|[P|[P|P]]]; discriminate.
    + destruct P as [P|[P|[P|P]]]; discriminate.
  - inversion V; subst; cbn [v_kv v_ev v_st v_qu] in *; try discriminate.
    + right. left. auto.
    + right. right. match goal with H : [_] = _ :: _ |- _ => injection H as <- <- end.
      assert (X : vdispatch (mkV v0 [] v0 [AUpdateSpec k sp]) k (AUpdateSpec k sp) [] =
        mkV (Some (new_obj v0 sp)) [EMod k (new_obj v0 sp)] v0 []).
      { destruct v0 as [o|]; unfold vdispatch, vwrite, put1; cbn [v_kv v_ev v_st v_qu w_rev w_spec w_status]; [|reflexivity].
        rewrite Z.ltb_irrefl. reflexivity. }
      rewrite X. cbn. split; [reflexivity|]. split; [reflexivity|]. split; [auto|]. split; [intros e [<-|[]]; reflexivity|].
      split; [right; discriminate|]. destruct P as [P|P]; auto.
    + rewrite sync_self. right. left. auto.
    + destruct P as [[m0 [P|P]]|P]; discriminate.
    + destruct P as [[m0 [P|P]]|P]; discriminate.
    + destruct P as [[m0 [P|P]]|P]; discriminate.
    + right. left. split; [reflexivity|]. destruct P as [[m0 [P|P]]|P]; try discriminate. injection P as -> ->.
      rewrite found_old by assumption. left. exists m0. auto.
    + right. left. split; [reflexivity|]. destruct P as [[m0 [P|P]]|P]; try discriminate. injection P as -> ->. left. exists mark'. auto.
    + right. left. auto.
  - inversion V; subst; try congruence; right; right.
    + auto 10.
    + cbn [v_kv v_ev v_st v_qu]. split; [exact K|]. split; [exact Q|].
      match goal with H : v_ev v = e :: l |- _ => rewrite H in * end.
      assert (X : vevent (v_st v) e = Some (new_obj v0 sp)).
      { rewrite (E e (or_introl eq_refl)). cbn. destruct S as [-> | ->]; [apply new_newer|apply new_again]. }
      rewrite X. split; [auto|]. split; [intros e' H; apply E; right; exact H|]. split; [auto|].
      destruct P as [P|[P|[P _]]]; auto.
    + cbn [v_kv v_ev v_st v_qu]. assert (X : sync_key (v_kv v) (v_st v) = Some (new_obj v0 sp)).
      { rewrite K, sync_mod1. destruct S as [-> | ->]; [apply new_newer|apply new_again]. }
      rewrite X. split; [exact K|]. split; [exact Q|]. split; [auto|]. split; [intros e []|]. split; [auto|].
      destruct P as [P|[P|[P _]]]; auto.
    + destruct P as [[m0 [P|P]]|[P|[P _]]]; discriminate.
    + destruct P as [[m0 [P|P]]|[P|[P _]]]; discriminate.
    + destruct P as [[m0 [P|P]]|[P|[P _]]]; discriminate.
    + split; [exact K|]. split; [exact Q|]. split; [exact S|]. split; [exact E|]. split; [exact N|].
      destruct P as [[m0 [P|P]]|[P|[P _]]]; try discriminate. injection P as -> ->.
      match goal with H : m k = _ |- _ => rename H into MK end.
      destruct S as [S|S]; rewrite S in MK.
      * rewrite (found_old m k q v0 IW MK). left. exists m0. auto.
      * rewrite (found_new m k q v0 sp IW MK). auto.
    + split; [exact K|]. split; [exact Q|]. split; [exact S|]. split; [exact E|]. split; [exact N|].
      destruct P as [[m0 [P|P]]|[P|[P _]]]; try discriminate. injection P as -> ->. left. exists mark'. auto.
    + split; [exact K|]. split; [exact Q|]. split; [exact S|]. split; [exact E|]. split; [exact N|]. auto.
Qed.

(** * Creating, while controllers write statuses *)
Definition spec_of (sp : Z) (o : option wobj) : Prop := match o with Some x => w_spec x = sp | None => True end.
Definition is_mod (e : wevent) : Prop := match e with EMod _ _ => True | _ => False end.
Definition is_status (a : waction) : Prop := match a with AUpdateStatus _ _ => True | _ => False end.
Definition JC (k sp : Z) (v : view) (p : phase) : Prop :=
  (* it is there already *)
  ((p = PNew \/ p = PDone AnsRefused) /\ v_st v <> None /\ v_kv v <> None /\ (forall e, In e (v_ev v) -> is_mod e) /\
   (forall a, In a (v_qu v) -> is_status a)) \/
  (* it has not been written *)
  (v_kv v = None /\ v_st v = None /\ v_ev v = [] /\
   ((p = PNew \/ p = PRead (AUpdateSpec k sp) \/ p = PSend (AUpdateSpec k sp) None) /\ (forall a, In a (v_qu v) -> is_status a) \/
    ((exists m, p = PCheck None m \/ p = PWait None m) \/ p = PDone AnsTimeout) /\ In (AUpdateSpec k sp) (v_qu v) /\
      (forall a, In a (v_qu v) -> is_status a \/ a = AUpdateSpec k sp))) \/
  (* it has *)
  (v_kv v <> None /\ spec_of sp (v_kv v) /\ spec_of sp (v_st v) /\
   (forall e, In e (v_ev v) -> exists o, e = EMod k o /\ w_spec o = sp) /\ (v_st v <> None \/ v_ev v <> []) /\
   (forall a, In a (v_qu v) -> is_status a \/ a = AUpdateSpec k sp) /\
   ((exists m, p = PCheck None m \/ p = PWait None m) \/ p = PDone AnsTimeout \/ p = PDone AnsOk /\ v_st v <> None)).

Lemma mod1_some : forall st o, mod1 st o <> None.
Proof. intros [c|] o; cbn; [destruct (_ <? _)|]; discriminate. Qed.
Lemma mod1_spec : forall sp st o, spec_of sp st -> w_spec o = sp -> spec_of sp (mod1 st o).
Proof. intros sp [c|] o A B; cbn; [destruct (_ <? _); [exact A|exact B]|exact B]. Qed.
Lemma put1_spec : forall kv o o', put1 kv o = Some o' -> w_spec o' = w_spec o.
Proof.
  intros [p|] o o'; cbn.
  - destruct (w_rev o <? w_rev p); [discriminate|]. intros [= <-]. reflexivity.
  - intros [= <-]. reflexivity.
Qed.

(** What a status or a spec does to an object. *)
Lemma status_view : forall v k k0 t l, let v' := vdispatch v k (AUpdateStatus k0 t) l in
  v_qu v' = l /\
  ((v_kv v' = v_kv v /\ v_st v' = v_st v /\ v_ev v' = v_ev v) \/
   (exists ko o', v_kv v = Some ko /\ v_st v <> None /\ w_spec o' = w_spec ko /\
      v_kv v' = Some o' /\ v_st v' = mod1 (v_st v) o' /\ v_ev v' = v_ev v ++ [EMod k o'])).
Proof.
  intros v k k0 t l. unfold vdispatch. destruct (v_st v) as [so|] eqn:S, (v_kv v) as [ko|] eqn:K; cbn [v_kv v_ev v_st v_qu]; auto.
  destruct (put1 (Some ko) (mkW (w_rev so) (w_spec ko) t)) as [o'|] eqn:P; cbn [v_kv v_ev v_st v_qu]; auto.
  split; [reflexivity|]. right. exists ko, o'. apply put1_spec in P. cbn in P. repeat split; auto. discriminate.
Qed.
Lemma spec_view : forall v k k0 sp l, let v' := vdispatch v k (AUpdateSpec k0 sp) l in
  v_qu v' = l /\ v_st v' = v_st v /\
  ((v_kv v' = v_kv v /\ v_kv v <> None /\ v_ev v' = v_ev v) \/
   (exists o', w_spec o' = sp /\ v_kv v' = Some o' /\ v_ev v' = v_ev v ++ [EMod k o'])).
Proof.
  intros v k k0 sp l. unfold vdispatch.
  assert (X : forall o, w_spec o = sp -> let v' := vwrite v k l o in v_qu v' = l /\ v_st v' = v_st v /\
    ((v_kv v' = v_kv v /\ v_kv v <> None /\ v_ev v' = v_ev v) \/
     (exists o', w_spec o' = sp /\ v_kv v' = Some o' /\ v_ev v' = v_ev v ++ [EMod k o']))).
  { intros o O. unfold vwrite. destruct (put1 (v_kv v) o) as [o'|] eqn:P; cbn [v_kv v_ev v_st v_qu]; (split; [reflexivity|]; split; [reflexivity|]).
    - right. exists o'. apply put1_spec in P. repeat split; congruence.
    - left. repeat split. intros E. rewrite E in P. discriminate. }
  destruct (v_st v), (v_kv v); apply X; reflexivity.
Qed.

Lemma JC_step : forall k sp b v p v' p', JC k sp v p -> vstep k (RCreate sp) b (v, p) (v', p') -> JC k sp v' p'.
Proof.
  intros k sp b v p v' p' J V. unfold JC in J.
  destruct J as [[P [S [K [E Q]]]]|[[K [S [E P]]]|[K [KS [SS [E [N [Q P]]]]]]]].
  - (* there *)
    inversion V; subst.
    + left. auto.
    + left. cbn. repeat split; auto. intros a H. apply in_app_iff in H as [H|[<-|[]]]; [auto|exact I].
    + left. match goal with H : v_qu v = _ |- _ => rewrite H in Q end.
      pose proof (Q a (or_introl eq_refl)) as IS. destruct a as [|k0 t|]; try contradiction.
      destruct (status_view v k k0 t l) as [Q1 [[K1 [S1 E1]]|[ko [o' [A [B [_ [K1 [S1 E1]]]]]]]]].
      * rewrite Q1, K1, S1, E1. repeat split; auto. intros a H. apply Q. right. exact H.
      * rewrite Q1, K1, S1, E1. split; [exact P|]. split; [apply mod1_some|]. split; [discriminate|].
        split; [|intros a H; apply Q; right; exact H]. intros e H. apply in_app_iff in H as [H|[<-|[]]]; [auto|exact I].
    + left. cbn. match goal with H : v_ev v = _ |- _ => rewrite H in E end.
      split; [exact P|]. split; [|split; [exact K|split; [intros e' H; apply E; right; exact H|exact Q]]].
      pose proof (E e (or_introl eq_refl)) as IM. destruct e; [apply mod1_some|contradiction].
    + left. cbn. split; [exact P|]. split; [|split; [exact K|split; [intros e []|exact Q]]].
      destruct (v_kv v); [|congruence]. rewrite sync_mod1. apply mod1_some.
    + left. cbn. split; [exact P|]. split; [exact S|]. split; [discriminate|]. split; [|exact Q].
      intros e H. apply in_app_iff in H as [H|[<-|[]]]; [auto|exact I].
    + left. unfold begin. match goal with H : m k = _ |- _ => rewrite H end. destruct (v_st v'); [|congruence].
      repeat split; auto.
    + destruct P; discriminate.
    + destruct P; discriminate.
    + destruct P; discriminate.
    + destruct P; discriminate.
    + destruct P; discriminate.
  - (* not written *)
    inversion V; subst; try (match goal with H : v_ev v = _ :: _ |- _ => rewrite E in H; discriminate end);
      try (match goal with H : v_kv v = Some _ |- _ => rewrite K in H; discriminate end).
    + right. left. auto.
    + right. left. cbn. split; [exact K|]. split; [exact S|]. split; [exact E|]. destruct P as [[P Q]|[P [I0 Q]]].
      * left. split; [exact P|]. intros a H. apply in_app_iff in H as [H|[<-|[]]]; [auto|exact I].
      * right. split; [exact P|]. split; [apply in_app_iff; auto|]. intros a H. apply in_app_iff in H as [H|[<-|[]]]; [auto|left; exact I].
    + match goal with H : v_qu v = _ |- _ => rewrite H in P; rename H into HQ end.
      destruct a as [k0 sp0|k0 t|k0].
      * destruct P as [[_ Q]|[P [_ Q]]]; [destruct (Q _ (or_introl eq_refl))|].
        destruct (Q _ (or_introl eq_refl)) as [[]|X]. injection X as -> ->.
        destruct (spec_view v k k sp l) as [Q1 [S1 [[_ [X _]]|[o' [O [K1 E1]]]]]]; [congruence|].
        right. right. rewrite Q1, S1, K1, E1, S, E. cbn. split; [discriminate|]. split; [exact O|]. split; [exact I|].
        split; [intros e [<-|[]]; eauto|]. split; [right; discriminate|].
        split; [intros a H; apply Q; right; exact H|]. destruct P as [P|P]; auto.
      * destruct (status_view v k k0 t l) as [Q1 [[K1 [S1 E1]]|[ko [o' [A _]]]]]; [|congruence].
        right. left. rewrite Q1, K1, S1, E1. split; [exact K|]. split; [exact S|]. split; [exact E|].
        destruct P as [[P Q]|[P [I0 Q]]].
        -- left. split; [exact P|]. intros a H. apply Q. right. exact H.
        -- right. split; [exact P|]. split; [destruct I0 as [X|X]; [discriminate|exact X]|]. intros a H. apply Q. right. exact H.
      * destruct P as [[_ Q]|[P [_ Q]]]; [destruct (Q _ (or_introl eq_refl))|].
        destruct (Q _ (or_introl eq_refl)) as [[]|X]. discriminate.
    + right. left. cbn. rewrite K. cbn. auto.
    + right. left. split; [exact K|]. split; [exact S|]. split; [exact E|]. destruct P as [[P Q]|[[[m0 [P|P]]|P] _]]; try discriminate.
      left. split; [|exact Q]. unfold begin. match goal with H : m k = _ |- _ => rewrite H end. rewrite S. auto.
    + right. left. split; [exact K|]. split; [exact S|]. split; [exact E|]. destruct P as [[[P|[P|P]] Q]|[[[m0 [P|P]]|P] _]]; try discriminate.
      injection P as ->. left. rewrite S. auto.
    + right. left. cbn. split; [exact K|]. split; [exact S|]. split; [exact E|]. destruct P as [[[P|[P|P]] Q]|[[[m0 [P|P]]|P] _]]; try discriminate.
      injection P as -> ->. right. split; [left; exists 0; auto|]. split; [apply in_app_iff; right; left; reflexivity|].
      intros a H. apply in_app_iff in H as [H|[<-|[]]]; auto.
    + right. left. split; [exact K|]. split; [exact S|]. split; [exact E|]. destruct P as [[[P|[P|P]] Q]|[[[m0 [P|P]]|P] Q]]; try discriminate.
      injection P as -> ->. right. split; [|exact Q]. left. unfold found. match goal with H : m k = _ |- _ => rewrite H end. rewrite S. exists m0. auto.
    + right. left. split; [exact K|]. split; [exact S|]. split; [exact E|]. destruct P as [[[P|[P|P]] Q]|[[[m0 [P|P]]|P] Q]]; try discriminate.
      injection P as -> ->. right. split; [|exact Q]. left. exists mark'. auto.
    + right. left. split; [exact K|]. split; [exact S|]. split; [exact E|]. destruct P as [[[P|[P|P]] Q]|[[[m0 [P|P]]|P] Q]]; try discriminate.
      right. split; [|exact Q]. auto.
  - (* written *)
    assert (NP : forall A : Prop, (p = PNew \/ exists a, p = PRead a \/ exists seen, p = PSend a seen) -> A).
    { intros A [->|[a [->|[seen ->]]]]; destruct P as [[m0 [P|P]]|[P|[P _]]]; discriminate. }
    inversion V; subst.
    + right. right. auto 10.
    + right. right. cbn. repeat split; auto. intros a H. apply in_app_iff in H as [H|[<-|[]]]; [auto|left; exact I].
    + right. right. match goal with H : v_qu v = _ |- _ => rewrite H in Q end.
      assert (Q' : forall a, In a l -> is_status a \/ a = AUpdateSpec k sp) by (intros a0 H; apply Q; right; exact H).
      destruct (Q a (or_introl eq_refl)) as [IS| ->].
      * destruct a as [|k0 t|]; try contradiction.
        destruct (status_view v k k0 t l) as [Q1 [[K1 [S1 E1]]|[ko [o' [A [B [O [K1 [S1 E1]]]]]]]]].
        -- rewrite Q1, K1, S1, E1. auto 10.
        -- assert (O' : w_spec o' = sp) by (rewrite A in KS; cbn in KS; congruence).
           rewrite Q1, K1, S1, E1. split; [discriminate|]. split; [exact O'|]. split; [apply mod1_spec; assumption|].
           split; [intros e H; apply in_app_iff in H as [H|[<-|[]]]; [auto|eauto]|]. split; [left; apply mod1_some|].
           split; [exact Q'|]. destruct P as [P|[P|[P _]]]; auto. right. right. split; [exact P|apply mod1_some].
      * destruct (spec_view v k k sp l) as [Q1 [S1 [[K1 [_ E1]]|[o' [O [K1 E1]]]]]]; rewrite Q1, S1, K1, E1.
        -- auto 10.
        -- split; [discriminate|]. split; [exact O|]. split; [exact SS|].
           split; [intros e H; apply in_app_iff in H as [H|[<-|[]]]; [auto|eauto]|].
           split; [right; destruct (v_ev v); discriminate|]. auto.
    + right. right. cbn. match goal with H : v_ev v = _ |- _ => rewrite H in E end.
      destruct (E e (or_introl eq_refl)) as [o [-> O]]. cbn. split; [exact K|]. split; [exact KS|]. split; [apply mod1_spec; assumption|].
      split; [intros e' H; apply E; right; exact H|]. split; [left; apply mod1_some|]. split; [exact Q|].
      destruct P as [P|[P|[P _]]]; auto. right. right. split; [exact P|apply mod1_some].
    + right. right. cbn. destruct (v_kv v) as [o|] eqn:KV; [|congruence]. rewrite sync_mod1.
      split; [discriminate|]. split; [exact KS|]. split; [apply mod1_spec; assumption|]. split; [intros e []|].
      split; [left; apply mod1_some|]. split; [exact Q|]. destruct P as [P|[P|[P _]]]; auto. right. right. split; [exact P|apply mod1_some].
    + right. right. match goal with H : v_kv v = Some _ |- _ => rewrite H in KS end. cbn. cbn in KS.
      split; [discriminate|]. split; [exact KS|]. split; [exact SS|].
      split; [intros e H; apply in_app_iff in H as [H|[<-|[]]]; [auto|eexists; split; [reflexivity|exact KS]]|].
      split; [right; destruct (v_ev v); discriminate|]. auto.
    + apply NP. auto.
    + apply NP. eauto.
    + apply NP. eauto.
    + right. right. split; [exact K|]. split; [exact KS|]. split; [exact SS|]. split; [exact E|]. split; [exact N|]. split; [exact Q|].
      destruct P as [[m0 [P|P]]|[P|[P _]]]; try discriminate. injection P as -> ->. unfold found.
      match goal with H : m k = _ |- _ => rewrite H end. destruct (v_st v'); [right; right; split; [reflexivity|discriminate]|left; exists m0; auto].
    + right. right. split; [exact K|]. split; [exact KS|]. split; [exact SS|]. split; [exact E|]. split; [exact N|]. split; [exact Q|].
      destruct P as [[m0 [P|P]]|[P|[P _]]]; try discriminate. injection P as -> ->. left. exists mark'. auto.
    + right. right. split; [exact K|]. split; [exact KS|]. split; [exact SS|]. split; [exact E|]. split; [exact N|]. split; [exact Q|]. auto.
Qed.

(** * Deleting, while controllers write statuses *)
Definition JD (k : Z) (v : view) (p : phase) : Prop :=
  (* it is not there *)
  ((p = PNew \/ p = PDone AnsRefused) /\ v_st v = None /\ v_kv v = None /\ v_ev v = [] /\ (forall a, In a (v_qu v) -> is_status a)) \/
  (* it has not been deleted *)
  (v_st v <> None /\ v_kv v <> None /\ (forall e, In e (v_ev v) -> is_mod e) /\
   ((p = PNew \/ p = PSend (ADelete k) None) /\ (forall a, In a (v_qu v) -> is_status a) \/
    ((exists m, p = PCheck None m \/ p = PWait None m) \/ p = PDone AnsTimeout) /\ In (ADelete k) (v_qu v) /\
      (forall a, In a (v_qu v) -> is_status a \/ a = ADelete k))) \/
  (* it has *)
  (v_kv v = None /\ (forall a, In a (v_qu v) -> is_status a \/ a = ADelete k) /\
   ((v_st v <> None /\ exists l, v_ev v = l ++ [EDel k] /\ forall e, In e l -> is_mod e) \/ (v_st v = None /\ v_ev v = [])) /\
   ((exists m, p = PCheck None m \/ p = PWait None m) \/ p = PDone AnsTimeout \/ p = PDone AnsOk /\ v_st v = None)).

Lemma delete_view : forall v k k0 l, let v' := vdispatch v k (ADelete k0) l in
  v_qu v' = l /\ v_st v' = v_st v /\
  ((v_st v <> None /\ v_kv v <> None /\ v_kv v' = None /\ v_ev v' = v_ev v ++ [EDel k]) \/
   ((v_st v = None \/ v_kv v = None) /\ v_kv v' = v_kv v /\ v_ev v' = v_ev v)).
Proof.
  intros v k k0 l. unfold vdispatch. destruct (v_st v) eqn:S, (v_kv v) eqn:K; cbn; rewrite ?S, ?K;
    (split; [reflexivity|]; split; [reflexivity|]); auto.
  left. split; [discriminate|]. split; [discriminate|]. auto.
Qed.

Lemma JD_step : forall k b v p v' p', JD k v p -> vstep k RDelete b (v, p) (v', p') -> JD k v' p'.
Proof.
  intros k b v p v' p' J V. unfold JD in J.
  destruct J as [[P [S [K [E Q]]]]|[[S [K [E P]]]|[K [Q [X P]]]]].
  - inversion V; subst; try (match goal with H : v_ev v = _ :: _ |- _ => rewrite E in H; discriminate end);
      try (match goal with H : v_kv v = Some _ |- _ => rewrite K in H; discriminate end); left; try (destruct P; discriminate).
    + auto.
    + cbn. repeat split; auto. intros a H. apply in_app_iff in H as [H|[<-|[]]]; [auto|exact I].
    + match goal with H : v_qu v = _ |- _ => rewrite H in Q end.
      pose proof (Q a (or_introl eq_refl)) as IS. destruct a as [|k0 t|]; try contradiction.
      destruct (status_view v k k0 t l) as [Q1 [[K1 [S1 E1]]|[ko [o' [A _]]]]]; [|congruence].
      rewrite Q1, K1, S1, E1. repeat split; auto. intros a H. apply Q. right. exact H.
    + cbn. rewrite K. cbn. auto.
    + unfold begin. match goal with H : m k = _ |- _ => rewrite H end. rewrite S. auto.
  - inversion V; subst.
    + right. left. auto.
    + right. left. cbn. split; [exact S|]. split; [exact K|]. split; [exact E|]. destruct P as [[P Q]|[P [I0 Q]]].
      * left. split; [exact P|]. intros a H. apply in_app_iff in H as [H|[<-|[]]]; [auto|exact I].
      * right. split; [exact P|]. split; [apply in_app_iff; auto|]. intros a H. apply in_app_iff in H as [H|[<-|[]]]; [auto|left; exact I].
    + match goal with H : v_qu v = _ |- _ => rewrite H in P end.
      assert (ST : is_status a \/ a = ADelete k /\ ((exists m, p' = PCheck None m \/ p' = PWait None m) \/ p' = PDone AnsTimeout)).
      { destruct P as [[_ Q]|[P [_ Q]]]; [left; apply Q; left; reflexivity|]. destruct (Q a (or_introl eq_refl)); auto. }
      destruct ST as [IS|[-> P']].
      * destruct a as [|k0 t|]; try contradiction. right. left.
        assert (P' : (p' = PNew \/ p' = PSend (ADelete k) None) /\ (forall a, In a l -> is_status a) \/
          ((exists m, p' = PCheck None m \/ p' = PWait None m) \/ p' = PDone AnsTimeout) /\ In (ADelete k) l /\
          (forall a, In a l -> is_status a \/ a = ADelete k)).
        { destruct P as [[P Q]|[P [I0 Q]]].
          - left. split; [exact P|]. intros a H. apply Q. right. exact H.
          - right. split; [exact P|]. split; [destruct I0 as [X|X]; [discriminate|exact X]|]. intros a H. apply Q. right. exact H. }
        destruct (status_view v k k0 t l) as [Q1 [[K1 [S1 E1]]|[ko [o' [A [B [_ [K1 [S1 E1]]]]]]]]]; rewrite Q1, K1, S1, E1.
        -- auto.
        -- split; [apply mod1_some|]. split; [discriminate|]. split; [|exact P'].
           intros e H. apply in_app_iff in H as [H|[<-|[]]]; [auto|exact I].
      * destruct (delete_view v k k l) as [Q1 [S1 [[_ [_ [K1 E1]]]|[[X|X] _]]]]; try congruence.
        right. right. rewrite Q1, S1, K1, E1. split; [reflexivity|].
        split; [intros a H; destruct P as [[_ Q]|[_ [_ Q]]]; [left|]; apply Q; right; exact H|].
        split; [left; split; [exact S|exists (v_ev v); auto]|]. destruct P' as [P'|P']; auto.
    + right. left. cbn. match goal with H : v_ev v = _ |- _ => rewrite H in E end.
      pose proof (E e (or_introl eq_refl)) as IM. destruct e; [|contradiction]. cbn.
      split; [apply mod1_some|]. split; [exact K|]. split; [intros e' H; apply E; right; exact H|exact P].
    + right. left. cbn. destruct (v_kv v) as [o|] eqn:KV; [|congruence]. rewrite sync_mod1.
      split; [apply mod1_some|]. split; [discriminate|]. split; [intros e []|exact P].
    + right. left. cbn. split; [exact S|]. split; [discriminate|]. split; [|exact P].
      intros e H. apply in_app_iff in H as [H|[<-|[]]]; [auto|exact I].
    + right. left. unfold begin. match goal with H : m k = _ |- _ => rewrite H end. destruct (v_st v') eqn:SV; [|congruence].
      split; [discriminate|]. split; [exact K|]. split; [exact E|]. left. destruct P as [[_ Q]|[[[m0 [P|P]]|P] _]]; try discriminate. auto.
    + destruct P as [[[P|P] Q]|[[[m0 [P|P]]|P] _]]; discriminate.
    + right. left. cbn. split; [exact S|]. split; [exact K|]. split; [exact E|].
      destruct P as [[[P|P] Q]|[[[m0 [P|P]]|P] _]]; try discriminate. injection P as -> ->.
      right. split; [left; exists 0; auto|]. split; [apply in_app_iff; right; left; reflexivity|].
      intros a H. apply in_app_iff in H as [H|[<-|[]]]; auto.
    + right. left. split; [exact S|]. split; [exact K|]. split; [exact E|].
      destruct P as [[[P|P] Q]|[[[m0 [P|P]]|P] Q]]; try discriminate. injection P as -> ->. right. split; [|exact Q]. left.
      unfold found. match goal with H : m k = _ |- _ => rewrite H end. destruct (v_st v'); [|congruence]. exists m0. auto.
    + right. left. split; [exact S|]. split; [exact K|]. split; [exact E|].
      destruct P as [[[P|P] Q]|[[[m0 [P|P]]|P] Q]]; try discriminate. injection P as -> ->. right. split; [|exact Q]. left. exists mark'. auto.
    + right. left. split; [exact S|]. split; [exact K|]. split; [exact E|].
      destruct P as [[[P|P] Q]|[[[m0 [P|P]]|P] Q]]; try discriminate. right. auto.
  - assert (NP : forall A : Prop, (p = PNew \/ exists a, p = PRead a \/ exists seen, p = PSend a seen) -> A).
    { intros A [->|[a [->|[seen ->]]]]; destruct P as [[m0 [P|P]]|[P|[P _]]]; discriminate. }
    inversion V; subst.
    + right. right. auto.
    + right. right. cbn. repeat split; auto. intros a H. apply in_app_iff in H as [H|[<-|[]]]; [auto|left; exact I].
    + right. right. match goal with H : v_qu v = _ |- _ => rewrite H in Q end.
      assert (Q' : forall a, In a l -> is_status a \/ a = ADelete k) by (intros a0 H; apply Q; right; exact H).
      destruct (Q a (or_introl eq_refl)) as [IS| ->].
      * destruct a as [|k0 t|]; try contradiction.
        destruct (status_view v k k0 t l) as [Q1 [[K1 [S1 E1]]|[ko [o' [A _]]]]]; [|congruence].
        rewrite Q1, K1, S1, E1. auto.
      * destruct (delete_view v k k l) as [Q1 [S1 [[_ [A _]]|[_ [K1 E1]]]]]; [congruence|]. rewrite Q1, S1, K1, E1. auto.
    + right. right. cbn. split; [exact K|]. split; [exact Q|].
      match goal with H : v_ev v = _ |- _ => rename H into HE end. rewrite HE in X. destruct X as [[S [l0 [EL M]]]|[_ X]]; [|discriminate].
      destruct l0 as [|e0 l0]; cbn in EL; injection EL as -> ->.
      * cbn. split; [right; auto|]. destruct P as [P|[P|[P _]]]; auto.
      * pose proof (M e0 (or_introl eq_refl)) as IM. destruct e0; [|contradiction]. cbn.
        split; [left; split; [apply mod1_some|]; exists l0; split; [reflexivity|intros e H; apply M; right; exact H]|].
        destruct P as [P|[P|[_ P]]]; auto. congruence.
    + right. right. cbn. rewrite K. cbn. split; [reflexivity|]. split; [exact Q|]. split; [auto|].
      destruct P as [P|[P|[P _]]]; auto.
    + congruence.
    + apply NP. auto.
    + apply NP. eauto.
    + apply NP. eauto.
    + right. right. split; [exact K|]. split; [exact Q|]. split; [exact X|].
      destruct P as [[m0 [P|P]]|[P|[P _]]]; try discriminate. injection P as -> ->. unfold found.
      match goal with H : m k = _ |- _ => rewrite H end. destruct (v_st v'); [left; exists m0; auto|auto].
    + right. right. split; [exact K|]. split; [exact Q|]. split; [exact X|].
      destruct P as [[m0 [P|P]]|[P|[P _]]]; try discriminate. injection P as -> ->. left. exists mark'. auto.
    + right. right. split; [exact K|]. split; [exact Q|]. split; [exact X|]. auto.
Qed.

(** * The claims *)
Lemma filter_nil : forall A (f : A -> bool) l, (forall a, In a l -> f a = false) -> filter f l = [].
Proof.
  intros A f l H. induction l as [|a l IH]; [reflexivity|]. cbn. rewrite (H a (or_introl eq_refl)). apply IH.
  intros b B. apply H. right. exact B.
Qed.
Lemma quiet_view : forall s k, nothing_under_way s k -> view_of s k = mkV (x_kv s k) [] (x_store s k) [].
Proof.
  intros s k [Q E]. unfold view_of, evk, quk. rewrite !filter_nil; [reflexivity| |].
  - intros a H. apply Z.eqb_neq. auto.
  - intros e H. apply Z.eqb_neq. auto.
Qed.
Lemma reach_sane : forall s, reachable s -> sane_calls s.
Proof. intros s R. eapply sane_runs; [apply sane_start|exact R]. Qed.
Lemma no_other_ok : forall k a, no_other k a -> no_other k a /\ (false = true -> untouched k a).
Proof. intros k a H. split; [exact H|discriminate]. Qed.
Lemma untouched_ok : forall k a, untouched k a -> no_other k a /\ (true = true -> untouched k a).
Proof. intros k a H. split; [apply H|auto]. Qed.

Lemma run_write : forall s0 i k q sp s, reachable s0 -> arrives s0 i k q -> wanted q (x_kv s0 k) = Some sp ->
  wruns (untouched k) s0 s ->
  exists p, x_calls s i = Some (mkC k q p) /\ JW k sp (x_kv s0 k) (view_of s k) p /\ sane_calls s.
Proof.
  intros s0 i k q sp s R [C [OD [NU E]]] W RUN.
  eapply (view_runs (untouched k) i k q (JW k sp (x_kv s0 k)) true s0 s PNew); try eassumption.
  - apply untouched_ok.
  - intros b v p v' p' J V CA. eapply JW_step; [exact W|exact J|exact V|auto].
  - apply reach_sane, R.
  - rewrite quiet_view by exact NU. rewrite E. left. auto.
Qed.
Lemma run_create : forall s0 i k sp s, reachable s0 -> arrives s0 i k (RCreate sp) -> wruns (no_other k) s0 s ->
  exists p, x_calls s i = Some (mkC k (RCreate sp) p) /\ JC k sp (view_of s k) p /\ sane_calls s.
Proof.
  intros s0 i k sp s R [C [OD [NU E]]] RUN.
  eapply (view_runs (no_other k) i k (RCreate sp) (JC k sp) false s0 s PNew); try eassumption.
  - apply no_other_ok.
  - intros b v p v' p' J V _. eapply JC_step; eassumption.
  - apply reach_sane, R.
  - rewrite quiet_view by exact NU. rewrite E. unfold JC. cbn. destruct (x_kv s0 k) as [o|].
    + left. split; [auto|]. split; [discriminate|]. split; [discriminate|]. split; intros x [].
    + right. left. repeat (split; [reflexivity|]). left. split; [auto|intros x []].
Qed.
Lemma run_delete : forall s0 i k s, reachable s0 -> arrives s0 i k RDelete -> wruns (no_other k) s0 s ->
  exists p, x_calls s i = Some (mkC k RDelete p) /\ JD k (view_of s k) p /\ sane_calls s.
Proof.
  intros s0 i k s R [C [OD [NU E]]] RUN.
  eapply (view_runs (no_other k) i k RDelete (JD k) false s0 s PNew); try eassumption.
  - apply no_other_ok.
  - intros b v p v' p' J V _. eapply JD_step; eassumption.
  - apply reach_sane, R.
  - rewrite quiet_view by exact NU. rewrite E. unfold JD. cbn. destruct (x_kv s0 k) as [o|].
    + right. left. split; [discriminate|]. split; [discriminate|]. split; [intros e []|]. left. split; [auto|intros a []].
    + left. split; [auto|]. repeat (split; [reflexivity|]). intros a [].
Qed.

Lemma answered_phase : forall s i r k q p, answered s i r -> x_calls s i = Some (mkC k q p) -> p = PDone r.
Proof. intros s i r k q p [k' [q' A]] C. rewrite A in C. congruence. Qed.

Lemma written : forall s0 i k q sp s, reachable s0 -> arrives s0 i k q -> wanted q (x_kv s0 k) = Some sp ->
  wruns (untouched k) s0 s -> answered s i AnsOk -> is_spec s k sp.
Proof.
  intros s0 i k q sp s R A W RUN OK. destruct (run_write _ _ _ _ _ _ R A W RUN) as [p [C [J _]]].
  rewrite (answered_phase _ _ _ _ _ _ OK C) in J. unfold JW in J. cbn [view_of v_kv v_st] in J.
  destruct J as [[_ [X|[X|[X|X]]]]|[[_ [[m [X|X]]|X]]|[K [_ [_ [_ [_ [[m [X|X]]|[X|[_ S]]]]]]]]]]; try discriminate.
  split; eexists; (split; [eassumption|apply new_spec]).
Qed.
Lemma refused : forall s0 i k q sp s, reachable s0 -> arrives s0 i k q -> wanted q (x_kv s0 k) = Some sp ->
  wruns (untouched k) s0 s -> answered s i AnsRefused ->
  x_store s k = x_store s0 k /\ x_kv s k = x_kv s0 k /\ (exists o, x_kv s0 k = Some o) /\ exists sp', q = RCreate sp'.
Proof.
  intros s0 i k q sp s R A W RUN OK.
  assert (E0 : x_store s0 k = x_kv s0 k) by apply A.
  (* a refusal comes from the first look *)
  set (J := fun v p => JW k sp (x_kv s0 k) v p /\ (p = PDone AnsRefused -> (exists o, x_kv s0 k = Some o) /\ exists sp', q = RCreate sp')).
  assert (X : exists p, x_calls s i = Some (mkC k q p) /\ J (view_of s k) p /\ sane_calls s).
  { destruct A as [C [OD [NU E]]].
    eapply (view_runs (untouched k) i k q J true s0 s PNew); try eassumption.
    - apply untouched_ok.
    - intros b v p v' p' [J1 J2] V CA. split; [eapply JW_step; [exact W|exact J1|exact V|auto]|].
      intros ->. inversion V; subst; auto.
      + match goal with H : begin m k q = _, M : m k = _ |- _ => rename H into B; rename M into MK end.
        assert (SV : v_st v' = x_kv s0 k).
        { destruct J1 as [[-> _]|[[_ [[m' [P|P]]|P]]|[_ [_ [_ [_ [_ [[m' [P|P]]|[P|[P _]]]]]]]]]]; try discriminate. reflexivity. }
        unfold begin in B. rewrite MK, SV in B. destruct q; destruct (x_kv s0 k); try discriminate; cbn in W; try discriminate; eauto.
      + destruct (found m k q seen); discriminate.
    - apply reach_sane, R.
    - rewrite quiet_view by exact NU. split; [rewrite E; left; auto|discriminate]. }
  destruct X as [p [C [[J1 J2] _]]]. rewrite (answered_phase _ _ _ _ _ _ OK C) in J1, J2.
  destruct (J2 eq_refl) as [X1 X2]. unfold JW in J1.
  destruct J1 as [[V _]|[[_ [[m [X|X]]|X]]|[_ [_ [_ [_ [_ [[m [X|X]]|[X|[X _]]]]]]]]]]; try discriminate.
  injection V as V1 _ V3 _. rewrite E0. auto.
Qed.
Lemma created : forall s0 i k sp s, reachable s0 -> arrives s0 i k (RCreate sp) -> wruns (no_other k) s0 s ->
  answered s i AnsOk -> is_spec s k sp.
Proof.
  intros s0 i k sp s R A RUN OK. destruct (run_create _ _ _ _ _ R A RUN) as [p [C [J _]]].
  rewrite (answered_phase _ _ _ _ _ _ OK C) in J. unfold JC in J. cbn [view_of v_kv v_st] in J.
  destruct J as [[[P|P] _]|[[_ [_ [_ [[[P|[P|P]] _]|[[[m [P|P]]|P] _]]]]]|[K [KS [SS [_ [_ [_ [[m [P|P]]|[P|[_ S]]]]]]]]]]]; try discriminate.
  unfold is_spec. destruct (x_store s k) as [o|]; [|congruence]. destruct (x_kv s k) as [o'|]; [|congruence]. cbn in KS, SS.
  split; eexists; (split; [reflexivity|assumption]).
Qed.
Lemma deleted : forall s0 i k s, reachable s0 -> arrives s0 i k RDelete -> wruns (no_other k) s0 s ->
  answered s i AnsOk -> is_gone s k.
Proof.
  intros s0 i k s R A RUN OK. destruct (run_delete _ _ _ _ R A RUN) as [p [C [J _]]].
  rewrite (answered_phase _ _ _ _ _ _ OK C) in J. unfold JD in J. cbn [view_of v_kv v_st] in J.
  destruct J as [[[P|P] _]|[[_ [_ [_ [[[P|P] _]|[[[m [P|P]]|P] _]]]]]|[K [_ [_ [[m [P|P]]|[P|[_ S]]]]]]]]; try discriminate.
  split; assumption.
Qed.

Lemma found_come : forall s c seen, has_come s c seen <-> found (x_store s) (c_key c) (c_req c) seen = true.
Proof.
  intros s c seen. unfold has_come, found.
  assert (X : forall st : option wobj,
    (exists o, st = Some o /\ match seen with None => True | Some r => r < w_rev o end) <->
    match st with None => false | Some o => match seen with None => true | Some r => r <? w_rev o end end = true).
  { intros [o|].
    - destruct seen as [r|]; rewrite ?Z.ltb_lt; (split; [intros [o' [X Y]]; injection X as <-; auto|intros H; exists o; auto]).
    - split; [intros [o' [X _]]; discriminate|discriminate]. }
  destruct (c_req c); try apply X. destruct (x_store s (c_key c)); split; congruence.
Qed.
Lemma never_asleep : forall s i c seen, reachable s -> asleep s i c seen -> ~ has_come s c seen.
Proof.
  intros s i c seen R [C [mark [P M]]] H. apply found_come in H.
  destruct (reach_sane _ R) as [_ S]. destruct (S _ _ C) as [_ A]. unfold awake in A. rewrite P in A.
  destruct A as [_ A]. specialize (A H). lia.
Qed.

Lemma wakes : forall s i k q seen mark, sane_calls s -> x_calls s i = Some (mkC k q (PWait seen mark)) ->
  found (x_store s) k q seen = true ->
  exists s1 s2, wstep s (WWake i) = Some s1 /\ wstep s1 (WGo i) = Some s2 /\ answered s2 i AnsOk.
Proof.
  intros s i k q seen mark [_ S] C F. destruct (S _ _ C) as [_ A]. unfold awake in A. cbn in A. destruct A as [_ A]. specialize (A F).
  apply Z.ltb_lt in A. cbn [wstep]. rewrite C. cbn [c_phase]. rewrite A. do 2 eexists. split; [reflexivity|].
  cbn [wstep x_calls set_phase]. rewrite upd_same. cbn [c_phase]. split; [reflexivity|]. unfold answered. cbn [x_calls set_phase c_key c_req x_store].
  rewrite upd_same, F. eauto.
Qed.
Lemma comes : forall s0 i k q s, reachable s0 -> arrives s0 i k q ->
  (wruns (untouched k) s0 s \/ ((q = RDelete \/ exists sp, q = RCreate sp) /\ wruns (no_other k) s0 s)) ->
  nothing_under_way s k -> waiting s i ->
  exists s1 s2, wstep s (WWake i) = Some s1 /\ wstep s1 (WGo i) = Some s2 /\ answered s2 i AnsOk.
Proof.
  intros s0 i k q s R A RUN NU [c [seen [mark [C P]]]].
  assert (WK : forall (ok : wait_act -> Prop) s', (forall a, untouched k a -> ok a) -> wruns (untouched k) s0 s' -> wruns ok s0 s').
  { intros ok s' H X. induction X; [constructor|econstructor; eauto]. }
  assert (CASES : (exists sp, wanted q (x_kv s0 k) = Some sp /\ wruns (untouched k) s0 s) \/
                  (q = RDelete /\ wruns (no_other k) s0 s) \/ (exists sp, q = RCreate sp /\ wruns (no_other k) s0 s) \/
                  (exists n, q = RAdd n /\ x_kv s0 k = None /\ wruns (untouched k) s0 s)).
  { destruct RUN as [RUN|[[->|[sp ->]] RUN]]; [|right; left; auto|right; right; left; exists sp; auto].
    destruct q as [sp|sp|n|]; cbn.
    - left. exists sp. auto.
    - left. exists sp. auto.
    - destruct (x_kv s0 k) as [o|] eqn:K; cbn; [left; exists (w_spec o + n); auto|right; right; right; exists n; auto].
    - right. left. split; [reflexivity|]. eapply WK; [|exact RUN]. intros a H. apply H. }
  destruct CASES as [[sp [W RUN']]|[[-> RUN']|[[sp [-> RUN']]|[n [-> [K0 RUN']]]]]].
  - destruct (run_write _ _ _ _ _ _ R A W RUN') as [p [C' [J S]]]. rewrite C in C'. injection C' as ->. cbn in P. subst p.
    rewrite quiet_view in J by exact NU. unfold JW in J. cbn [v_kv v_ev v_st v_qu] in J.
    destruct J as [[_ [X|[X|[X|X]]]]|[[X _]|[_ [_ [_ [_ [[X|X] PP]]]]]]]; try discriminate; try (destruct (X eq_refl)).
    destruct PP as [[m [Y|Y]]|[Y|[Y _]]]; try discriminate. injection Y as -> ->.
    eapply wakes; [exact S|exact C|]. eapply found_new; [destruct q; cbn in *; [exact I|exact I|exact I|discriminate]|exact X].
  - destruct (run_delete _ _ _ _ R A RUN') as [p [C' [J S]]]. rewrite C in C'. injection C' as ->. cbn in P. subst p.
    rewrite quiet_view in J by exact NU. unfold JD in J. cbn [v_kv v_ev v_st v_qu] in J.
    destruct J as [[[X|X] _]|[[_ [_ [_ [[[X|X] _]|[_ [[] _]]]]]]|[_ [_ [[[_ [l [X _]]]|[X _]] PP]]]]]; try discriminate.
    + destruct l; discriminate.
    + destruct PP as [[m [Y|Y]]|[Y|[Y _]]]; try discriminate. injection Y as -> ->.
      eapply wakes; [exact S|exact C|]. cbn. rewrite X. reflexivity.
  - destruct (run_create _ _ _ _ _ R A RUN') as [p [C' [J S]]]. rewrite C in C'. injection C' as ->. cbn in P. subst p.
    rewrite quiet_view in J by exact NU. unfold JC in J. cbn [v_kv v_ev v_st v_qu] in J.
    destruct J as [[[X|X] _]|[[_ [_ [_ [[[X|[X|X]] _]|[_ [[] _]]]]]]|[_ [_ [_ [_ [[X|X] [_ PP]]]]]]]]; try discriminate; try (destruct (X eq_refl); fail).
    destruct PP as [[m [Y|Y]]|[Y|[Y _]]]; try discriminate. injection Y as -> ->.
    eapply wakes; [exact S|exact C|]. cbn. destruct (x_store s k); [reflexivity|congruence].
  - (* nothing to add to: refused *)
    exfalso. destruct A as [C0 [OD [NU0 E]]].
    destruct (view_runs (untouched k) i k (RAdd n) (fun v p => v = mkV None [] None [] /\ (p = PNew \/ p = PDone AnsRefused)) true s0 s PNew)
      as [p [C' [[_ J] _]]]; try assumption.
    + apply untouched_ok.
    + intros b v p v' p' [-> J] V CA. specialize (CA eq_refl). subst b. inversion V; subst; cbn in *; try discriminate; auto;
        try (destruct J; discriminate).
      split; [reflexivity|]. right. match goal with H : m k = None |- _ => rewrite H end. reflexivity.
    + apply reach_sane, R.
    + rewrite quiet_view by exact NU0. rewrite E, K0. auto.
    + rewrite C in C'. injection C' as ->. cbn in P. destruct J; congruence.
Qed.

(** The dispatcher works off what there is. *)
Lemma runs_first : forall (ok : wait_act -> Prop) a s s1 s2, ok a -> wstep s a = Some s1 -> wruns ok s1 s2 -> wruns ok s s2.
Proof.
  intros ok a s s1 s2 O W R. induction R as [|b t1 t2 R IH Ob Wb].
  - eapply wruns_step; [apply wruns_start|exact O|exact W].
  - eapply wruns_step; [exact IH|exact Ob|exact Wb].
Qed.
Lemma works_off : forall n s, (2 * length (x_queue s) + length (x_events s) <= n)%nat ->
  exists s', wruns dispatcher s s' /\ x_queue s' = [] /\ x_events s' = [].
Proof.
  induction n as [|n IH]; intros s L.
  - exists s. split; [constructor|]. destruct (x_queue s), (x_events s); cbn in L; try lia. auto.
  - destruct (x_events s) as [|e t] eqn:E.
    + destruct (x_queue s) as [|a q] eqn:Q; [exists s; split; [constructor|auto]|].
      assert (W : wstep s WAct = Some (dispatch s a q)) by (cbn; rewrite Q; reflexivity).
      destruct (IH (dispatch s a q)) as [s' [R [A B]]].
      { destruct (dispatch_frame s a q) as [_ [EQ _]]. rewrite EQ.
        assert (LE : (length (x_events (dispatch s a q)) <= 1)%nat).
        { clear - E. destruct s as [kv ev st ep qu cs]. cbn in E. subst ev. unfold dispatch.
          destruct a as [k sp|k t|k]; destruct (st k), (kv k); try (destruct (kv_put _ _ _)); try (destruct (store_mod _ _ _)); cbn; lia. }
        cbn in L. lia. }
      exists s'. split; [|auto]. eapply runs_first; [|exact W|exact R]. exact I.
    + assert (W : exists s1, wstep s WEvent = Some s1 /\ x_events s1 = t /\ x_queue s1 = x_queue s).
      { cbn. rewrite E. destruct e; [destruct (store_mod _ _ _)|]; eexists; repeat split. }
      destruct W as [s1 [W [E1 Q1]]]. destruct (IH s1) as [s' [R [A B]]].
      { rewrite E1, Q1. cbn in L. lia. }
      exists s'. split; [|auto]. eapply runs_first; [|exact W|exact R]. exact I.
Qed.
Lemma worked_off : forall s, exists s', wruns dispatcher s s' /\ forall k, nothing_under_way s' k.
Proof.
  intros s. destruct (works_off _ s (le_n _)) as [s' [R [A B]]]. exists s'. split; [exact R|]. intros k. unfold nothing_under_way.
  rewrite A, B. split; intros x [].
Qed.

(** * Runs *)
Lemma exec_runs : forall l s s' (ok : wait_act -> Prop), Forall ok l -> wexec s l = Some s' -> wruns ok s s'.
Proof.
  assert (G : forall l s0 s s' (ok : wait_act -> Prop), wruns ok s0 s -> Forall ok l -> wexec s l = Some s' -> wruns ok s0 s').
  { induction l as [|a l IH]; intros s0 s s' ok R F E; cbn in E; [injection E as <-; exact R|].
    destruct (wstep s a) as [s1|] eqn:W; [|discriminate]. inversion F; subst. eapply IH; [econstructor; eassumption|assumption|exact E]. }
  intros l s s' ok. apply G. constructor.
Qed.
Definition wreached (l : list wait_act) : waits := match wexec no_objects l with Some s => s | None => no_objects end.
Definition valid (l : list wait_act) : bool := match wexec no_objects l with Some _ => true | None => false end.
Lemma valid_reach : forall l, valid l = true -> reachable (wreached l).
Proof.
  intros l V. unfold valid, wreached in *. destruct (wexec no_objects l) eqn:E; [|discriminate].
  eapply exec_runs; [|exact E]. apply Forall_forall. intros a _. exact I.
Qed.
(** A whole creation of object 7 with spec 3. *)
Definition ex_created : list wait_act := [WBegin 1 7 (RCreate 3); WGo 1; WGo 1; WGo 1; WGo 1; WAct; WEvent; WWake 1; WGo 1].

Lemma calls_begin : forall l s s' j c, wexec s l = Some s' -> x_calls s' j = Some c ->
  (exists c0, x_calls s j = Some c0) \/ exists k q, In (WBegin j k q) l.
Proof.
  induction l as [|a l IH]; intros s s' j c E C; cbn in E; [injection E as <-; eauto|].
  destruct (wstep s a) as [s1|] eqn:W; [|discriminate].
  destruct (IH s1 s' j c E C) as [[c1 C1]|[k [q H]]]; [|right; exists k, q; right; exact H].
  destruct a as [i k q|i|i|i|k t| | | |k]; cbn [wstep] in W.
  - destruct (x_calls s i) eqn:CI; [discriminate|]. injection W as <-. cbn in C1. unfold upd in C1.
    destruct (Z.eqb_spec j i) as [->|]; [right; exists k, q; left; reflexivity|eauto].
  - destruct (x_calls s i) as [c0|] eqn:CI; [|discriminate]. left. destruct (Z.eq_dec j i) as [->|N]; [eauto|].
    destruct (c_phase c0); try discriminate; injection W as <-; cbn in C1; rewrite upd_other in C1 by exact N; eauto.
  - destruct (x_calls s i) as [c0|] eqn:CI; [|discriminate]. left. destruct (Z.eq_dec j i) as [->|N]; [eauto|].
    destruct (c_phase c0); try discriminate. destruct (_ <? _); [|discriminate]. injection W as <-. cbn in C1.
    rewrite upd_other in C1 by exact N; eauto.
  - destruct (x_calls s i) as [c0|] eqn:CI; [|discriminate]. left. destruct (Z.eq_dec j i) as [->|N]; [eauto|].
    destruct (c_phase c0); try discriminate. injection W as <-. cbn in C1. rewrite upd_other in C1 by exact N; eauto.
  - injection W as <-. eauto.
  - destruct (x_queue s) as [|a0 l0]; [discriminate|]. injection W as <-. destruct (dispatch_frame s a0 l0) as [EC _].
    rewrite EC in C1. eauto.
  - destruct (x_events s) as [|[k o|k] t]; [discriminate| |]; [destruct (store_mod _ _ _)|]; injection W as <-; eauto.
  - injection W as <-. eauto.
  - destruct (x_kv s k); [|discriminate]. destruct (kv_put _ _ _); [|discriminate]. injection W as <-. eauto.
Qed.

Definition is_done (c : call) : bool := match c_phase c with PDone _ => true | _ => false end.
Definition obj_eqb (a b : option wobj) : bool :=
  match a, b with
  | None, None => true
  | Some x, Some y => (w_rev x =? w_rev y) && (w_spec x =? w_spec y) && (w_status x =? w_status y)
  | _, _ => false
  end.
Lemma obj_eqb_ok : forall a b, obj_eqb a b = true -> a = b.
Proof.
  intros [[a1 a2 a3]|] [[b1 b2 b3]|]; cbn; try discriminate; [|reflexivity]. intros H.
  apply andb_true_iff in H as [H H3]. apply andb_true_iff in H as [H1 H2]. apply Z.eqb_eq in H1, H2, H3. congruence.
Qed.
Definition arrives_b (l : list wait_act) (i k : Z) : bool :=
  let s := wreached l in
  valid l &&
  forallb (fun a => match a with
                    | WBegin j _ _ => (j =? i) || match x_calls s j with Some c => negb (c_key c =? k) || is_done c | None => true end
                    | _ => true end) l &&
  forallb (fun a => negb (act_key a =? k)) (x_queue s) && forallb (fun e => negb (event_key e =? k)) (x_events s) &&
  obj_eqb (x_store s k) (x_kv s k).
Lemma arrives_b_ok : forall l i k q, arrives_b l i k = true -> x_calls (wreached l) i = Some (mkC k q PNew) ->
  arrives (wreached l) i k q.
Proof.
  intros l i k q H C. unfold arrives_b in H. apply andb_true_iff in H as [H OE]. apply andb_true_iff in H as [H EV].
  apply andb_true_iff in H as [H QU]. apply andb_true_iff in H as [V CS]. rewrite forallb_forall in CS, QU, EV.
  split; [exact C|]. split; [|split; [split|apply obj_eqb_ok, OE]].
  - intros j c CJ K N. unfold valid in V. unfold wreached in *. destruct (wexec no_objects l) as [s|] eqn:E; [|discriminate].
    destruct (calls_begin _ _ _ _ _ E CJ) as [[c0 X]|[k' [q' X]]]; [discriminate|].
    specialize (CS _ X). cbn in CS. rewrite CJ in CS. destruct (Z.eqb_spec j i); [contradiction|]. cbn in CS.
    subst k. rewrite Z.eqb_refl in CS. cbn in CS. unfold is_done in CS. unfold done. destruct (c_phase c); try discriminate. eauto.
  - intros a X Y. specialize (QU _ X). rewrite Y, Z.eqb_refl in QU. discriminate.
  - intros e X Y. specialize (EV _ X). rewrite Y, Z.eqb_refl in EV. discriminate.
Qed.
Definition spec_b (s : waits) (k sp : Z) : bool :=
  match x_store s k, x_kv s k with Some o, Some o' => (w_spec o =? sp) && (w_spec o' =? sp) | _, _ => false end.
Lemma spec_b_ok : forall s k sp, spec_b s k sp = true -> is_spec s k sp.
Proof.
  intros s k sp H. unfold spec_b in H. destruct (x_store s k) as [o|] eqn:S; [|discriminate].
  destruct (x_kv s k) as [o'|] eqn:K; [|discriminate]. apply andb_true_iff in H as [H1 H2]. apply Z.eqb_eq in H1, H2.
  split; eexists; (split; [eassumption|assumption]).
Qed.
Lemma run_split : forall l l' (ok : wait_act -> Prop), valid (l ++ l') = true -> Forall ok l' ->
  wruns ok (wreached l) (wreached (l ++ l')).
Proof.
  assert (A : forall l l' s, wexec s (l ++ l') = match wexec s l with Some s1 => wexec s1 l' | None => None end).
  { induction l as [|a l IH]; intros l' s; cbn; [reflexivity|]. destruct (wstep s a); [apply IH|reflexivity]. }
  intros l l' ok V F. unfold valid, wreached in *. rewrite A in *. destruct (wexec no_objects l) as [s|]; [|discriminate].
  destruct (wexec s l') as [s'|] eqn:E; [|discriminate]. eapply exec_runs; eassumption.
Qed.

(** ** A creation while a controller writes a status *)
Definition ex_begin : list wait_act := [WBegin 1 7 (RCreate 3)].
Definition ex_rest : list wait_act := [WGo 1; WGo 1; WGo 1; WStatus 7 5; WGo 1; WAct; WResync; WAct; WWake 1; WGo 1].
Lemma created_run : reachable (wreached ex_begin) /\ arrives (wreached ex_begin) 1 7 (RCreate 3) /\
  wruns (no_other 7) (wreached ex_begin) (wreached (ex_begin ++ ex_rest)) /\ answered (wreached (ex_begin ++ ex_rest)) 1 AnsOk /\
  x_store (wreached (ex_begin ++ ex_rest)) 7 = Some (mkW 1 3 5).
Proof.
  split; [apply valid_reach; vm_compute; reflexivity|]. split; [apply arrives_b_ok; vm_compute; reflexivity|].
  split; [apply run_split; [vm_compute; reflexivity|repeat constructor]|].
  split; [exists 7, (RCreate 3); vm_compute; reflexivity|vm_compute; reflexivity].
Qed.
(** Adding partitions, and then deleting. *)
Definition ex_add0 : list wait_act := ex_begin ++ ex_rest ++ [WBegin 2 7 (RAdd 2); WEvent].
Definition ex_add : list wait_act := [WGo 2; WGo 2; WGo 2; WGo 2; WAct; WBegin 9 8 (RPut 4); WEvent; WWake 2; WGo 2].
Lemma added_run : reachable (wreached ex_add0) /\ arrives (wreached ex_add0) 2 7 (RAdd 2) /\
  wanted (RAdd 2) (x_kv (wreached ex_add0) 7) = Some 5 /\
  wruns (untouched 7) (wreached ex_add0) (wreached (ex_add0 ++ ex_add)) /\ answered (wreached (ex_add0 ++ ex_add)) 2 AnsOk /\
  x_store (wreached (ex_add0 ++ ex_add)) 7 = Some (mkW 2 5 5).
Proof.
  split; [apply valid_reach; vm_compute; reflexivity|]. split; [apply arrives_b_ok; vm_compute; reflexivity|].
  split; [vm_compute; reflexivity|].
  split; [apply run_split; [vm_compute; reflexivity|repeat constructor; cbn; lia]|].
  split; [exists 7, (RAdd 2); vm_compute; reflexivity|vm_compute; reflexivity].
Qed.
Definition ex_del0 : list wait_act := ex_add0 ++ ex_add ++ [WBegin 3 7 RDelete].
Definition ex_del : list wait_act := [WGo 3; WStatus 7 6; WGo 3; WRelink 7; WGo 3; WAct; WAct; WEvent; WEvent; WWake 3; WGo 3].
Lemma deleted_run : reachable (wreached ex_del0) /\ arrives (wreached ex_del0) 3 7 RDelete /\
  wruns (no_other 7) (wreached ex_del0) (wreached (ex_del0 ++ ex_del)) /\ answered (wreached (ex_del0 ++ ex_del)) 3 AnsOk.
Proof.
  split; [apply valid_reach; vm_compute; reflexivity|]. split; [apply arrives_b_ok; vm_compute; reflexivity|].
  split; [apply run_split; [vm_compute; reflexivity|repeat constructor; cbn; lia]|].
  exists 7, RDelete. vm_compute. reflexivity.
Qed.
(** A request that waits when all is done. *)
Definition ex_waits : list wait_act := [WGo 1; WGo 1; WGo 1; WGo 1; WAct; WEvent].
Lemma waiting_run : reachable (wreached ex_begin) /\ arrives (wreached ex_begin) 1 7 (RCreate 3) /\
  wruns (no_other 7) (wreached ex_begin) (wreached (ex_begin ++ ex_waits)) /\
  nothing_under_way (wreached (ex_begin ++ ex_waits)) 7 /\ waiting (wreached (ex_begin ++ ex_waits)) 1.
Proof.
  split; [apply valid_reach; vm_compute; reflexivity|]. split; [apply arrives_b_ok; vm_compute; reflexivity|].
  split; [apply run_split; [vm_compute; reflexivity|repeat constructor]|].
  assert (Q : x_queue (wreached (ex_begin ++ ex_waits)) = [] /\ x_events (wreached (ex_begin ++ ex_waits)) = [])
    by (split; vm_compute; reflexivity).
  destruct Q as [Q1 Q2]. split; [unfold nothing_under_way; rewrite Q1, Q2; split; intros x []|].
  exists (mkC 7 (RCreate 3) (PWait None 0)), None, 0. split; [vm_compute; reflexivity|reflexivity].
Qed.
Definition ex_asleep : list wait_act := [WBegin 1 7 (RCreate 3); WGo 1; WGo 1; WGo 1; WGo 1].
Lemma asleep_run : reachable (wreached ex_asleep) /\ asleep (wreached ex_asleep) 1 (mkC 7 (RCreate 3) (PWait None 0)) None.
Proof.
  split; [apply valid_reach; vm_compute; reflexivity|]. split; [vm_compute; reflexivity|].
  exists 0. split; [reflexivity|]. vm_compute. discriminate.
Qed.
(** Creating what is there. *)
Definition ex_ref0 : list wait_act := ex_created ++ [WBegin 2 7 (RCreate 4)].
Lemma refused_run : reachable (wreached ex_ref0) /\ arrives (wreached ex_ref0) 2 7 (RCreate 4) /\
  wruns (untouched 7) (wreached ex_ref0) (wreached (ex_ref0 ++ [WGo 2])) /\ answered (wreached (ex_ref0 ++ [WGo 2])) 2 AnsRefused.
Proof.
  split; [apply valid_reach; vm_compute; reflexivity|]. split; [apply arrives_b_ok; vm_compute; reflexivity|].
  split; [apply run_split; [vm_compute; reflexivity|repeat constructor]|].
  exists 7, (RCreate 4). vm_compute. reflexivity.
Qed.

(** * What goes wrong *)
Definition ex_two : list wait_act :=
  [WBegin 1 7 (RCreate 3); WBegin 2 7 (RCreate 4); WGo 1; WGo 2; WGo 1; WGo 2; WGo 1; WGo 2; WAct; WAct; WEvent; WEvent; WGo 1; WGo 2].
Lemma overwritten : exists s i j k sp sp', reachable s /\
  x_calls s i = Some (mkC k (RCreate sp) (PDone AnsOk)) /\ x_calls s j = Some (mkC k (RCreate sp') (PDone AnsOk)) /\
  sp <> sp' /\ at_rest s /\ is_spec s k sp'.
Proof.
  exists (wreached ex_two), 1, 2, 7, 3, 4. split; [apply valid_reach; vm_compute; reflexivity|].
  split; [vm_compute; reflexivity|]. split; [vm_compute; reflexivity|]. split; [lia|].
  split; [split; vm_compute; reflexivity|]. apply spec_b_ok. vm_compute. reflexivity.
Qed.
Definition ex_drop0 : list wait_act := ex_created ++ [WBegin 2 7 (RAdd 2)].
Definition ex_drop : list wait_act := [WGo 2; WGo 2; WGo 2; WRelink 7; WAct; WEvent; WGo 2].
Lemma dropped : exists s0 s i k n sp, reachable s0 /\ arrives s0 i k (RAdd n) /\ n <> 0 /\ is_spec s0 k sp /\
  wruns (no_other k) s0 s /\ answered s i AnsOk /\ at_rest s /\ is_spec s k sp.
Proof.
  exists (wreached ex_drop0), (wreached (ex_drop0 ++ ex_drop)), 2, 7, 2, 3.
  split; [apply valid_reach; vm_compute; reflexivity|]. split; [apply arrives_b_ok; vm_compute; reflexivity|].
  split; [lia|]. split; [apply spec_b_ok; vm_compute; reflexivity|].
  split; [apply run_split; [vm_compute; reflexivity|repeat constructor]|].
  split; [exists 7, (RAdd 2); vm_compute; reflexivity|]. split; [split; vm_compute; reflexivity|].
  apply spec_b_ok. vm_compute. reflexivity.
Qed.
Definition ex_lost : list wait_act :=
  [WBegin 2 7 (RAdd 1); WBegin 3 7 (RAdd 1); WGo 2; WGo 3; WGo 2; WGo 3; WGo 2; WAct; WEvent; WGo 3; WAct; WEvent; WGo 2; WGo 3].
Lemma lost : exists s0 s i j k sp, reachable s0 /\ at_rest s0 /\ is_spec s0 k sp /\ i <> j /\
  wruns no_controller s0 s /\
  x_calls s0 i = None /\ x_calls s i = Some (mkC k (RAdd 1) (PDone AnsOk)) /\
  x_calls s0 j = None /\ x_calls s j = Some (mkC k (RAdd 1) (PDone AnsOk)) /\
  at_rest s /\ is_spec s k (sp + 1).
Proof.
  exists (wreached ex_created), (wreached (ex_created ++ ex_lost)), 2, 3, 7, 3.
  split; [apply valid_reach; vm_compute; reflexivity|]. split; [split; vm_compute; reflexivity|].
  split; [apply spec_b_ok; vm_compute; reflexivity|]. split; [lia|].
  split; [apply run_split; [vm_compute; reflexivity|repeat constructor]|].
  do 4 (split; [vm_compute; reflexivity|]).
  split; [split; vm_compute; reflexivity|]. apply spec_b_ok. vm_compute. reflexivity.
Qed.
Definition ex_late : list wait_act := [WGo 1; WGo 1; WGo 1; WGo 1; WTimeout 1].
Lemma late : exists s0 s s' i k sp, reachable s0 /\ arrives s0 i k (RCreate sp) /\ wruns (untouched k) s0 s /\
  answered s i AnsTimeout /\ is_gone s k /\ wruns dispatcher s s' /\ is_spec s' k sp.
Proof.
  exists (wreached ex_begin), (wreached (ex_begin ++ ex_late)), (wreached ((ex_begin ++ ex_late) ++ [WAct; WEvent])), 1, 7, 3.
  split; [apply valid_reach; vm_compute; reflexivity|]. split; [apply arrives_b_ok; vm_compute; reflexivity|].
  split; [apply run_split; [vm_compute; reflexivity|repeat constructor]|].
  split; [exists 7, (RCreate 3); vm_compute; reflexivity|]. split; [split; vm_compute; reflexivity|].
  split; [apply run_split; [vm_compute; reflexivity|repeat constructor]|]. apply spec_b_ok. vm_compute. reflexivity.
Qed.
Definition ex_back : list wait_act := ex_created ++
  [WBegin 2 7 (RAdd 1); WBegin 3 7 RDelete; WGo 2; WGo 3; WGo 2; WGo 3; WGo 2; WAct; WAct; WEvent; WGo 3; WEvent].
Lemma comes_back : exists s i k, reachable s /\ x_calls s i = Some (mkC k RDelete (PDone AnsOk)) /\ at_rest s /\
  exists sp, is_spec s k sp.
Proof.
  exists (wreached ex_back), 3, 7. split; [apply valid_reach; vm_compute; reflexivity|]. split; [vm_compute; reflexivity|].
  split; [split; vm_compute; reflexivity|]. exists 4. apply spec_b_ok. vm_compute. reflexivity.
Qed.
