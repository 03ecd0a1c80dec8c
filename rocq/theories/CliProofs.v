(** Proofs for C103 and C104. *)
Require Import List Lia. Import ListNotations.
From Verif Require Import Base ConsumerModel CliModel CliSpec.

Lemma zlen_app (a b : bytes) : zlen (a ++ b) = zlen a + zlen b.
Proof. unfold zlen. rewrite app_length. lia. Qed.
Lemma zlen_pos (a : bytes) : 0 <= zlen a.
Proof. unfold zlen. lia. Qed.

(** * Lines *)
Lemma cut_line l : forall acc d, ~ In nl l -> cut (l ++ nl :: d) acc = (acc ++ l, true) :: cut d [].
Proof.
  induction l as [|c l IH]; intros acc d N; cbn [app cut].
  - rewrite Z.eqb_refl, app_nil_r. reflexivity.
  - destruct (Z.eqb_spec c nl) as [->|]; [exfalso; apply N; simpl; auto|]. rewrite IH by (intros H; apply N; simpl; auto). rewrite <- app_assoc. reflexivity.
Qed.
Lemma cut_last l : forall acc, ~ In nl l -> cut l acc = match acc ++ l with [] => [] | x => [(x, false)] end.
Proof.
  induction l as [|c l IH]; intros acc N; cbn [cut]; [rewrite app_nil_r; destruct acc; reflexivity|].
  destruct (Z.eqb_spec c nl) as [->|]; [exfalso; apply N; simpl; auto|]. rewrite IH by (intros H; apply N; simpl; auto). rewrite <- app_assoc. reflexivity.
Qed.
Definition tail_line (l : bytes) : list (bytes * bool) := match l with [] => [] | x => [(x, false)] end.
Lemma cut_text ls last : Forall (fun l => ~ In nl l) ls -> ~ In nl last -> cut (text ls ++ last) [] = map (fun l => (l, true)) ls ++ tail_line last.
Proof.
  intros F N. induction ls as [|l ls IH]; [cbn [text map concat app]; rewrite (cut_last last [] N); destruct last; reflexivity|]. inversion F; subst.
  unfold text in *. cbn [map concat]. rewrite <- !app_assoc. cbn [app]. rewrite cut_line by assumption. rewrite app_nil_l. cbn [map app]. f_equal. exact (IH H2).
Qed.
Lemma chop_id l : (forall a, l <> a ++ [cr]) -> chop l = l.
Proof.
  intros N. unfold chop. destruct (rev l) as [|c r] eqn:E; [reflexivity|]. destruct (Z.eqb_spec c cr) as [->|]; [|reflexivity].
  exfalso. apply (N (rev r)). rewrite <- (rev_involutive l), E. reflexivity.
Qed.
Lemma chop_cr a : chop (a ++ [cr]) = a.
Proof. unfold chop. rewrite rev_app_distr. simpl. apply rev_involutive. Qed.
Lemma read_lines ls : Forall line ls -> map read_line (map (fun l => (l, true)) ls) = map Some ls.
Proof.
  induction 1 as [|l ls (_ & U & N) _ IH]; simpl; [reflexivity|]. rewrite IH. f_equal. unfold read_line. cbn [fst snd]. rewrite U, chop_id by exact N. reflexivity.
Qed.
Lemma until_some l k : until_error (map Some l ++ k) = l ++ until_error k.
Proof. induction l as [|x l IH]; simpl; [reflexivity|]. rewrite IH. reflexivity. Qed.
Lemma until_all l : until_error (map Some l) = l.
Proof. rewrite <- (app_nil_r (map Some l)), until_some. apply app_nil_r. Qed.
(** The lines of a text; the last one may lack its newline *)
Definition with_last (ls : list bytes) (last : bytes) : list bytes := match last with [] => ls | _ => ls ++ [last] end.
Lemma text_lines ls last : Forall line ls -> ~ In nl last -> utf8 last = true ->
  until_error (lines (mkInput (text ls ++ last) false)) = with_last ls last.
Proof.
  intros F N U. unfold lines. cbn [i_fails i_data]. rewrite cut_text; [|eapply Forall_impl; [|exact F]; intros l H; apply H|exact N].
  rewrite map_app, read_lines by exact F. destruct last as [|c last].
  - simpl. rewrite app_nil_r. apply until_all.
  - rewrite until_some. unfold with_last, tail_line. cbn [map]. unfold read_line. cbn [fst snd]. rewrite U. reflexivity.
Qed.
Lemma text_only ls : Forall line ls -> until_error (lines (mkInput (text ls) false)) = ls.
Proof. intros F. rewrite <- (app_nil_r (text ls)). rewrite text_lines; auto. Qed.
(** A line that is not UTF-8 *)
Lemma text_bad ls bad d : Forall line ls -> ~ In nl bad -> utf8 bad = false ->
  until_error (lines (mkInput (text ls ++ bad ++ nl :: d) false)) = ls.
Proof.
  intros F N U. unfold lines. cbn [i_fails i_data].
  assert (E : cut (text ls ++ bad ++ nl :: d) [] = map (fun l => (l, true)) ls ++ (bad, true) :: cut d []).
  { clear U. induction ls as [|l ls IH]; [cbn [text map concat app]; rewrite cut_line by exact N; reflexivity|]. inversion F; subst.
    unfold text in *. cbn [map concat]. rewrite <- !app_assoc. cbn [app]. rewrite cut_line by apply H1. rewrite app_nil_l. cbn [map app]. f_equal. exact (IH H2). }
  rewrite E, map_app, read_lines by exact F. rewrite until_some. cbn [map]. unfold read_line at 1. cbn [fst]. rewrite U. cbn [until_error]. apply app_nil_r.
Qed.
(** Reading that fails *)
Lemma filter_true ls : filter (fun e : bytes * bool => snd e) (map (fun l => (l, true)) ls) = map (fun l => (l, true)) ls.
Proof. induction ls; simpl; [reflexivity|]. f_equal. assumption. Qed.
Lemma text_broken ls last : Forall line ls -> ~ In nl last -> until_error (lines (mkInput (text ls ++ last) true)) = ls.
Proof.
  intros F N. unfold lines. cbn [i_fails i_data]. rewrite cut_text; [|eapply Forall_impl; [|exact F]; intros l H; apply H|exact N].
  rewrite filter_app, filter_true. replace (filter _ (tail_line last)) with (@nil (bytes * bool)) by (destruct last; reflexivity).
  rewrite app_nil_r, read_lines by exact F. rewrite until_some. apply app_nil_r.
Qed.

(** * Keys *)
Lemma starts_spec s : forall l r, starts s l = Some r <-> l = s ++ r.
Proof.
  induction s as [|a s IH]; intros l r; simpl; [split; congruence|]. destruct l as [|b l]; [split; discriminate|].
  destruct (Z.eqb_spec a b) as [->|N]; [rewrite IH; split; congruence|]. split; [discriminate|congruence].
Qed.
Lemma starts_none s l : starts s l = None <-> forall r, l <> s ++ r.
Proof.
  split; [intros E r H; apply starts_spec in H; congruence|]. intros N. destruct (starts s l) as [r|] eqn:E; [|reflexivity].
  apply starts_spec in E. destruct (N r E).
Qed.
Lemma split_some s : forall l acc a v, split_once s l acc = Some (a, v) -> exists x, a = acc ++ x /\ divided s l x v.
Proof.
  induction l as [|c t IH]; intros acc a v; cbn [split_once].
  - destruct (starts s []) as [r|] eqn:E; [|discriminate]. intros H. injection H as <- <-. exists []. rewrite app_nil_r. split; [reflexivity|].
    apply starts_spec in E. split; [exact E|]. intros. apply zlen_pos.
  - destruct (starts s (c :: t)) as [r|] eqn:E.
    + intros H. injection H as <- <-. exists []. rewrite app_nil_r. split; [reflexivity|]. apply starts_spec in E. split; [exact E|]. intros. apply zlen_pos.
    + intros H. destruct (IH _ _ _ H) as (x & A & B & C). exists (c :: x). split; [rewrite A, <- app_assoc; reflexivity|].
      split; [rewrite B; reflexivity|]. intros a' v' D. destruct a' as [|c' a'].
      * exfalso. assert (Y := starts_none s (c :: t)). destruct Y as [Y _]. exact (Y E v' D).
      * injection D as <- D. specialize (C _ _ D). unfold zlen in *. cbn [length]. lia.
Qed.
Lemma split_none s : forall l acc, split_once s l acc = None -> forall a v, l <> a ++ s ++ v.
Proof.
  induction l as [|c t IH]; intros acc; cbn [split_once].
  - destruct (starts s []) as [r|] eqn:E; [discriminate|]. intros _ a v H. destruct a; [|discriminate]. rewrite starts_none in E. exact (E v H).
  - destruct (starts s (c :: t)) as [r|] eqn:E; [discriminate|]. intros H a v D. destruct a as [|c' a]; [rewrite starts_none in E; exact (E v D)|].
    injection D as _ D. exact (IH _ H a v D).
Qed.
Lemma record_meant k l r : record_of k l = Some r -> meant k l r.
Proof.
  destruct k as [|x|s]; simpl; intros H; [injection H as <-; constructor|injection H as <-; constructor|].
  destruct (split_once s l []) as [[a v]|] eqn:E; [|discriminate]. injection H as <-. destruct (split_some _ _ _ _ _ E) as (x & A & D). simpl in A. subst x. constructor. exact D.
Qed.
Lemma record_none k l : record_of k l = None -> forall r, ~ meant k l r.
Proof.
  destruct k as [|x|s]; simpl; intros H; try discriminate. destruct (split_once s l []) as [[a v]|] eqn:E; [discriminate|].
  intros r M. inversion M as [| |? ? ? ? D]. destruct D as [D _]. exact (split_none _ _ _ E _ _ D).
Qed.
Lemma records_meant k l : all_meant k l (records_of k l).
Proof.
  induction l as [|x l IH]; simpl; [constructor|]. destruct (record_of k x) as [r|] eqn:E; [apply all_cons; [apply record_meant, E|exact IH]|].
  apply all_skip; [apply record_none, E|exact IH].
Qed.
(** There is only one list that is meant *)
Lemma divided_one s l a v a' v' : divided s l a v -> divided s l a' v' -> a = a' /\ v = v'.
Proof.
  intros [E M] [E' M']. assert (L : length a = length a') by (specialize (M _ _ E'); specialize (M' _ _ E); unfold zlen in *; lia).
  rewrite E in E'. assert (A : a = a').
  { apply (f_equal (firstn (length a))) in E'. rewrite firstn_app, L, Nat.sub_diag, <- L, firstn_all in E'. simpl in E'. rewrite app_nil_r in E'.
    rewrite L, firstn_app, Nat.sub_diag, firstn_all in E'. simpl in E'. rewrite app_nil_r in E'. exact E'. }
  subst a'. apply app_inv_head in E'. apply app_inv_head in E'. auto.
Qed.
Lemma meant_one k l r r' : meant k l r -> meant k l r' -> r = r'.
Proof. destruct 1 as [| |s l a v D]; intros M; inversion M as [| |? ? ? ? D']; subst; auto. destruct (divided_one _ _ _ _ _ _ D D') as [-> ->]. reflexivity. Qed.
Lemma all_meant_one k l r : all_meant k l r -> forall r', all_meant k l r' -> r = r'.
Proof.
  induction 1 as [|l r t rs M A IH|l t rs N A IH]; intros r' B; inversion B; subst; auto.
  - f_equal; [eapply meant_one; eassumption|auto].
  - exfalso. eapply H1; eassumption.
  - exfalso. eapply N; eassumption.
Qed.

(** * Handing records over *)
Lemma hand_prefix l : forall fates n, prefix (map fst (fst (hand_all l fates n))) l
  /\ (snd (hand_all l fates n) = true -> map fst (fst (hand_all l fates n)) = l).
Proof.
  induction l as [|r t IH]; intros fates n; simpl; [split; [exists []; reflexivity|reflexivity]|]. destruct (fates n) as [|a] eqn:E.
  - simpl. split; [exists t; reflexivity|discriminate].
  - specialize (IH fates (S n)). destruct (hand_all t fates (S n)) as [h ok]. simpl in *. destruct IH as [[c IH1] IH2]. split; [exists c; rewrite IH1 at 1; reflexivity|].
    intros H. f_equal. auto.
Qed.
Lemma file_prefix l amo fates : prefix (map fst (fst (from_file l amo fates))) l.
Proof. unfold from_file. pose proof (hand_prefix l fates 0) as H. destruct (hand_all l fates 0) as [h ok]. apply H. Qed.
Lemma file_done l amo fates : snd (from_file l amo fates) = Done -> map fst (fst (from_file l amo fates)) = l
  /\ (amo = false -> Forall (fun e => snd e = Taken true) (fst (from_file l amo fates))).
Proof.
  unfold from_file. pose proof (hand_prefix l fates 0) as H. destruct (hand_all l fates 0) as [h ok]. cbn [fst snd] in *. destruct ok; [|discriminate]. simpl.
  destruct (amo || _) eqn:E; [|discriminate]. intros _. split; [apply H; reflexivity|]. intros ->. simpl in E. apply Forall_forall. intros e I.
  rewrite forallb_forall in E. specialize (E e I). destruct (snd e) as [|[]]; [discriminate|reflexivity|discriminate].
Qed.
Lemma stdin_prefix l amo fates : forall n, prefix (map fst (fst (from_stdin l amo fates n))) l.
Proof.
  induction l as [|r t IH]; intros n; simpl; [exists []; reflexivity|]. destruct (fates n) as [|a]; [exists t; reflexivity|]. destruct (amo || a); [|exists t; reflexivity].
  specialize (IH (S n)). destruct (from_stdin t amo fates (S n)) as [h x]. simpl in *. destruct IH as [c IH]. exists c. rewrite IH at 1. reflexivity.
Qed.
Lemma stdin_done l amo fates : forall n, snd (from_stdin l amo fates n) = Done -> map fst (fst (from_stdin l amo fates n)) = l
  /\ (amo = false -> Forall (fun e => snd e = Taken true) (fst (from_stdin l amo fates n))).
Proof.
  induction l as [|r t IH]; intros n; simpl; [intros _; split; [reflexivity|constructor]|]. destruct (fates n) as [|a]; [discriminate|].
  destruct (amo || a) eqn:E; [|discriminate]. specialize (IH (S n)). destruct (from_stdin t amo fates (S n)) as [h x]. simpl in *. intros H. destruct (IH H) as [A B].
  split; [f_equal; exact A|]. intros F. specialize (B F). subst amo. simpl in E. subst a. constructor; [reflexivity|exact B].
Qed.
(** Nothing goes wrong *)
Lemma hand_fine l fates : (forall n, fates n = Taken true) -> forall n, hand_all l fates n = (map (fun r => (r, Taken true)) l, true).
Proof. intros F. induction l as [|r t IH]; intros n; simpl; [reflexivity|]. rewrite F, IH. reflexivity. Qed.
Lemma file_fine l amo fates : (forall n, fates n = Taken true) -> from_file l amo fates = (map (fun r => (r, Taken true)) l, Done).
Proof.
  intros F. unfold from_file. rewrite hand_fine by exact F. f_equal. replace (forallb _ _) with true; [destruct amo; reflexivity|].
  symmetry. apply forallb_forall. intros e I. apply in_map_iff in I. destruct I as (r & <- & _). reflexivity.
Qed.
Lemma stdin_fine l amo fates : (forall n, fates n = Taken true) -> forall n, from_stdin l amo fates n = (map (fun r => (r, Taken true)) l, Done).
Proof. intros F. induction l as [|r t IH]; intros n; simpl; [reflexivity|]. rewrite F, IH. destruct amo; reflexivity. Qed.

(** * Consuming *)
Lemma consume_plain tty l : consume tty None (map Rec l) = (l, Done).
Proof. induction l as [|x l IH]; simpl; [reflexivity|]. rewrite IH. reflexivity. Qed.
Lemma consume_before tty e l : Forall (fun x => t_offset x < e) l -> forall t, consume tty (Some e) (map Rec l ++ t) = (l ++ fst (consume tty (Some e) t), snd (consume tty (Some e) t)).
Proof.
  induction 1 as [|x l H F IH]; intros t; simpl; [destruct (consume tty (Some e) t); reflexivity|].
  destruct (Z.leb_spec e (t_offset x)); [lia|]. rewrite IH. reflexivity.
Qed.
