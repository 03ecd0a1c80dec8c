(** C103: what the CLI produces from a text.  C104: what it prints when it consumes. *)
Require Import List. Import ListNotations.
From Verif Require Import Base ConsumerModel CliModel CliSpec CliProofs CliClaims.

(** C103: of a text, whose last line may lack its newline, each line becomes the record
    meant by the options, in order: whatever fails, those handed over are the first of
    these; if the command succeeds, all; and if nothing fails, it succeeds. *)
Theorem C103_lines : forall o ls last rs fates fl, p_raw o = false -> reads o (text ls ++ last) -> Forall line ls -> ~ In nl last -> utf8 last = true ->
  all_meant (p_key o) (match last with [] => ls | _ => ls ++ [last] end) rs ->
  prefix (map fst (fst (produce o fates fl))) rs
  /\ (snd (produce o fates fl) = Done -> map fst (fst (produce o fates fl)) = rs)
  /\ ((forall n, fates n = Taken true) -> fl = true -> snd (produce o fates fl) = Done).
Proof. exact sends_lines. Qed.
Print Assumptions C103_lines.
(** For any lines and options there is exactly one such list of records. *)
Theorem C103_meant : forall k ls, exists rs, all_meant k ls rs /\ forall rs', all_meant k ls rs' -> rs' = rs.
Proof. exact meant_exists. Qed.
Print Assumptions C103_meant.
Example C103_lines_ex : Forall line ex_lines
  /\ map fst (fst (produce (of_file NoKey false (text ex_lines)) fine true)) = [(None, [97]); (None, []); (None, [226; 130; 172])]
  /\ map fst (fst (produce (of_file (Separator [58; 58]) false [97; 58; 58; 58; 98; 10; 99; 10]) fine true)) = [(Some [97], [58; 98])].
Proof. split; [exact ex_lines_ok|split; reflexivity]. Qed.

(** C103: with --raw the whole input becomes one record, whatever is in it. *)
Theorem C103_raw : forall o d fates fl, p_raw o = true -> reads o d ->
  map fst (fst (produce o fates fl)) = [(match p_key o with Key k => Some k | _ => None end, d)]
  /\ ((forall n, fates n = Taken true) -> fl = true -> snd (produce o fates fl) = Done).
Proof. exact raw_whole. Qed.
Print Assumptions C103_raw.

(** C103: if the command succeeds, every record it handed over was acknowledged, unless
    delivery is at most once, and the producer was flushed. *)
Theorem C103_done : forall o fates fl, snd (produce o fates fl) = Done ->
  fl = true /\ (p_at_most_once o = false -> Forall (fun e => snd e = Taken true) (fst (produce o fates fl))).
Proof. exact done_acked. Qed.
Print Assumptions C103_done.
Example C103_done_ex : snd (produce (of_file NoKey false three) fine true) = Done /\ snd (produce (of_file NoKey false three) (fun _ => Taken false) true) = Failed.
Proof. split; reflexivity. Qed.

(** C103: the first line that is not UTF-8 ends the input.  It and all that follow are
    not sent, and the command succeeds. *)
Theorem C103_stops : forall o ls bad d rs fates, p_raw o = false -> reads o (text ls ++ bad ++ nl :: d) -> Forall line ls -> ~ In nl bad -> utf8 bad = false ->
  all_meant (p_key o) ls rs -> (forall n, fates n = Taken true) -> map fst (fst (produce o fates true)) = rs /\ snd (produce o fates true) = Done.
Proof. exact stops_bad. Qed.
Print Assumptions C103_stops.
Theorem C103_text_refuted : produce (of_file NoKey false three) fine true = ([((None, [97]), Taken true)], Done).
Proof. exact not_text. Qed.
Print Assumptions C103_text_refuted.
(** So does a read that fails. *)
Theorem C103_failing_refuted : forall o ls last rs fates, p_raw o = false ->
  p_source o = File (Some (mkInput (text ls ++ last) true)) \/ p_source o = Stdin (mkInput (text ls ++ last) true) -> Forall line ls -> ~ In nl last ->
  all_meant (p_key o) ls rs -> (forall n, fates n = Taken true) -> map fst (fst (produce o fates true)) = rs /\ snd (produce o fates true) = Done.
Proof. exact stops_failing. Qed.
Print Assumptions C103_failing_refuted.

(** C103: a carriage return at the end of a line is not in its record. *)
Theorem C103_return_refuted : produce (of_file NoKey false [97; 13; 10]) fine true = ([((None, [97]), Taken true)], Done)
  /\ produce (of_file NoKey false [97; 10]) fine true = ([((None, [97]), Taken true)], Done).
Proof. exact cr_lost. Qed.
Print Assumptions C103_return_refuted.

(** C103: a file that cannot be opened is an error and nothing is sent; *)
Theorem C103_missing : forall o fates fl, p_raw o = false -> p_source o = File None -> produce o fates fl = ([], Failed).
Proof. exact missing. Qed.
Print Assumptions C103_missing.
(** but with --raw an empty record without the key is sent, and the command succeeds. *)
Theorem C103_missing_refuted : forall k fates, map fst (fst (produce (mkProduce (Key k) true (File None) false) fates true)) = [(None, [])]
  /\ ((forall n, fates n = Taken true) -> snd (produce (mkProduce (Key k) true (File None) false) fates true) = Done).
Proof. exact raw_missing. Qed.
Print Assumptions C103_missing_refuted.

(** C103: --mirror chooses the partition of the topic for that cluster, if no other
    topic has one for it. *)
Theorem C103_mirror : forall m t l, In t l -> (forall t', In t' l -> t' <> t -> produce_to m t' = None) -> mirror_partition m l = produce_to m t.
Proof. exact mirror_one. Qed.
Print Assumptions C103_mirror.
Theorem C103_mirror_home : forall m n l i, produce_to m (n, Home l) = Some i -> nth_error l i = Some (m, true).
Proof. exact home_first. Qed.
Print Assumptions C103_mirror_home.
Example C103_mirror_ex : mirror_partition [2] [([97], Plain 2); ([98], Home [([1], true); ([2], true)])] = Some 1%nat.
Proof. reflexivity. Qed.
(** The first topic with one decides, whichever topic is produced to: records for one
    remote cluster go to the partition of another. *)
Theorem C103_mirror_refuted : mirror_partition [1] ex_topics = Some 0%nat /\ In ([98], Home [([2], true); ([1], true)]) ex_topics
  /\ produce_to [1] ([98], Home [([2], true); ([1], true)]) = Some 1%nat /\ nth_error [([2 : Z], true); ([1], true)] 0 = Some ([2], true).
Proof. exact other_topic. Qed.
Print Assumptions C103_mirror_refuted.

(** C104: where it starts, by the options, in a log from [start] up to [stable]. *)
Theorem C104_begins : forall f start stable, 0 <= start <= stable -> stable < 2 ^ 62 -> (forall n, In f [Head n; Start n; Tail n] -> 0 <= n < 2 ^ 32) ->
  resolve (offset_of f) start stable None = Ok (match f with Beginning => start | Head n => Z.min (start + n) stable | Start n => n | Tail n => Z.max (stable - n) start | Default => stable end).
Proof. exact begins. Qed.
Print Assumptions C104_begins.
Theorem C104_asks : forall f tty last stream, (forall a e, f = Start a -> last = Some e -> a <= e) ->
  consume_cmd f tty last stream = consume tty last (stream (offset_of f)).
Proof. exact asks. Qed.
Print Assumptions C104_asks.
Theorem C104_crossing : forall a e tty stream, e < a -> consume_cmd (Start a) tty (Some e) stream = ([], Failed).
Proof. exact crossing. Qed.
Print Assumptions C104_crossing.

(** C104: without --end everything the stream gives is printed, in its order; *)
Theorem C104_all : forall tty l, consume tty None (map Rec l) = (l, Done).
Proof. exact consume_all. Qed.
Print Assumptions C104_all.
(** up to an error, which is reported, or Ctrl-C. *)
Theorem C104_error : forall tty last l t, (match last with None => True | Some e => Forall (fun x => t_offset x < e) l end) ->
  consume tty last (map Rec l ++ Error :: t) = (l, Failed) /\ consume tty last (map Rec l ++ Stop :: t) = (l, Done)
  /\ consume tty last (map Rec l ++ MaxRetry :: t) = (l, if tty then Done else Failed).
Proof. exact consume_error. Qed.
Print Assumptions C104_error.

(** C104: with --end, of one partition, exactly the records up to that offset are
    printed if there is one with it, whatever follows. *)
Theorem C104_end : forall tty e l a t, ascending a l -> In e (map t_offset l) ->
  consume tty (Some e) (map Rec l ++ t) = (filter (fun x => t_offset x <=? e) l, Done).
Proof. exact consume_end. Qed.
Print Assumptions C104_end.
Example C104_end_ex : ascending 0 [at_ 0 3; at_ 0 4; at_ 0 5] /\ In 4 (map t_offset [at_ 0 3; at_ 0 4; at_ 0 5]).
Proof. split; [vm_compute; repeat split; discriminate|vm_compute; auto]. Qed.
(** If there is none, one record beyond it is printed. *)
Theorem C104_gap : forall tty e l a, ascending a l -> ~ In e (map t_offset l) ->
  consume tty (Some e) (map Rec l) = (filter (fun x => t_offset x <? e) l ++ firstn 1 (filter (fun x => e <? t_offset x) l), Done).
Proof. exact consume_gap. Qed.
Print Assumptions C104_gap.
Theorem C104_beyond_refuted : ascending 0 [at_ 0 10] /\ consume false (Some 3) (map Rec [at_ 0 10]) = ([at_ 0 10], Done).
Proof. exact beyond. Qed.
Print Assumptions C104_beyond_refuted.
(** Of several partitions, the first that gets there ends it for all. *)
Theorem C104_partitions_refuted : ascending 0 [at_ 0 0; at_ 0 1] /\ ascending 0 [at_ 1 0; at_ 1 1]
  /\ consume false (Some 1) (map Rec [at_ 0 0; at_ 0 1; at_ 1 0; at_ 1 1]) = ([at_ 0 0; at_ 0 1], Done).
Proof. exact other_partitions. Qed.
Print Assumptions C104_partitions_refuted.

(** C104: --mirror reads the first partition the topic has for that cluster; *)
Theorem C104_mirror : forall m n l i p, (exists b, nth_error l i = Some (m, b)) -> (forall j b, nth_error l j = Some (m, b) -> (i <= j)%nat) ->
  consume_partitions (Some m) p (n, Home l) = [i].
Proof. exact consume_home. Qed.
Print Assumptions C104_mirror.
(** if it has none, all partitions: those of other clusters. *)
Theorem C104_mirror_refuted : forall m n l, (forall b, ~ In (m, b) l) -> consume_partitions (Some m) [] (n, Home l) = seq 0 (length l).
Proof. exact consume_unknown. Qed.
Print Assumptions C104_mirror_refuted.
Example C104_mirror_ex : consume_partitions (Some [2]) [] ([97], Home [([1], false); ([2], false)]) = [1%nat]
  /\ consume_partitions (Some [3]) [] ([97], Home [([1], false); ([2], false)]) = [0%nat; 1%nat].
Proof. split; reflexivity. Qed.

(** C104: text is printed as it is, with its key if that is asked for, and a newline. *)
Theorem C104_text : forall Q sized o suppress v, sound Q -> utf8 v = true -> q_binary Q v = false -> In o [Dynamic; Text; Raw] ->
  (forall k, print_record Q sized o suppress false (k, v) = v ++ [nl])
  /\ (forall k, utf8 k = true -> print_record Q sized o suppress true (Some k, v) = [91] ++ k ++ [93; 32] ++ v ++ [nl])
  /\ print_record Q sized o suppress true (None, v) = [91; 110; 117; 108; 108; 93; 32] ++ v ++ [nl].
Proof. exact prints_text. Qed.
Print Assumptions C104_text.
Example C104_text_ex : sound simple /\ utf8 [226; 130; 172] = true.
Proof. split; [exact simple_sound|reflexivity]. Qed.
(** Other values are not printed as they are, also not as "raw"; *)
Theorem C104_raw_refuted : forall Q sized suppress k v, sound Q -> utf8 v = false -> print_record Q sized Raw suppress false (k, v) <> v ++ [nl].
Proof. exact not_raw. Qed.
Print Assumptions C104_raw_refuted.
(** and the key "null" is printed like none. *)
Theorem C104_null_refuted : forall Q sized o suppress v, sound Q ->
  print_record Q sized o suppress true (Some null_text, v) = print_record Q sized o suppress true (None, v).
Proof. exact null_key. Qed.
Print Assumptions C104_null_refuted.

(** C104: a text that is produced, and whose records are then consumed in order, is
    printed as it was. *)
Theorem C104_round : forall Q sized o ls first tty, sound Q -> Forall line ls -> Forall (fun l => q_binary Q l = false) ls -> reads o (text ls) ->
  p_raw o = false -> p_key o = NoKey -> snd (produce o fine true) = Done
  /\ print_all Q sized Dynamic false false (fst (consume tty None (map Rec (stored first (map fst (fst (produce o fine true))))))) = text ls.
Proof. exact round. Qed.
Print Assumptions C104_round.
Example C104_round_ex : Forall line ex_lines /\ reads (of_file NoKey false (text ex_lines)) (text ex_lines) /\ Forall (fun l => q_binary simple l = false) ex_lines.
Proof. split; [exact ex_lines_ok|]. split; [left; reflexivity|repeat constructor]. Qed.

(** C103: with --raw, an input whose reading fails is an error and nothing is sent; *)
Theorem C103_unreadable : forall o i fates fl, p_raw o = true -> p_source o = Stdin i -> i_fails i = true -> produce o fates fl = ([], Failed).
Proof. exact raw_failing. Qed.
Print Assumptions C103_unreadable.
(** a file whose reading fails is sent as an empty record without the key. *)
Theorem C103_unreadable_refuted : forall o i, p_raw o = true -> p_source o = File (Some i) -> i_fails i = true ->
  produce o (fun _ => Taken true) true = ([((None, []), Taken true)], Done).
Proof. exact raw_file_failing. Qed.
Print Assumptions C103_unreadable_refuted.
Example C103_unreadable_ex : exists o i, p_raw o = true /\ p_source o = File (Some i) /\ i_fails i = true /\ i_data i = [97] /\ p_key o = Key [1].
Proof. exists (mkProduce (Key [1]) true (File (Some (mkInput [97] true))) false), (mkInput [97] true). repeat split. Qed.

(** C103: at a remote cluster only the mirror of that home that can be produced to. *)
Theorem C103_mirror_remote : forall m n h k t i, produce_to m (n, Remote h k t) = Some i -> h = m /\ t = true /\ k <> O /\ i = O.
Proof. exact remote_target. Qed.
Print Assumptions C103_mirror_remote.
Example C103_mirror_remote_ex : produce_to [2] ([97], Remote [2] 1 true) = Some 0%nat.
Proof. reflexivity. Qed.

(** C104: without --mirror the partitions that are asked for, or all. *)
Theorem C104_partitions : forall p t, (p <> [] -> consume_partitions None p t = p) /\
  forall i, In i (consume_partitions None [] t) <-> (i < count (snd t))%nat.
Proof. exact chosen. Qed.
Print Assumptions C104_partitions.
Example C104_partitions_ex : consume_partitions None [2%nat; 0%nat] ([97], Plain 3) = [2%nat; 0%nat].
Proof. reflexivity. Qed.

(** C104: as JSON, what the library makes of it; what is no JSON is left out only if that
    is asked for. *)
Theorem C104_json : forall Q sized suppress k v,
  print_record Q sized Json suppress false (k, v) =
    match q_json Q v with Some x => x ++ [nl] | None => if suppress then [] else q_json_error Q v ++ [nl] end.
Proof. exact prints_json. Qed.
Print Assumptions C104_json.
