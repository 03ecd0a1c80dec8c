(** C10, C11: text forms of replica ids and log file names. *)
From Verif Require Import Base NameModel NameSpec NameProofs.

(** C10.  Printing then parsing gives the id back, for every topic text. *)
Theorem C10_replica_roundtrip : forall topic n, in_u 32 n -> parse_replica (print_replica topic n) = Some (topic, n).
Proof. exact replica_roundtrip. Qed.
Print Assumptions C10_replica_roundtrip.
Theorem C10_replica_injective : forall t1 n1 t2 n2, in_u 32 n1 -> in_u 32 n2 ->
  print_replica t1 n1 = print_replica t2 n2 -> t1 = t2 /\ n1 = n2.
Proof. exact replica_injective. Qed.
Print Assumptions C10_replica_injective.

(** C10.  Exactly the texts "topic-numeral" with a numeral below 2^32 are
    accepted; everything else is rejected. *)
Theorem C10_parse_iff : forall s topic n, parse_replica s = Some (topic, n) <->
  exists num, s = topic ++ [45] ++ num /\ numeral num n /\ n < 2 ^ 32.
Proof. exact parse_replica_iff. Qed.
Print Assumptions C10_parse_iff.
Theorem C10_malformed_rejected : forall s,
  (forall topic num n, s = topic ++ [45] ++ num -> ~ (numeral num n /\ n < 2 ^ 32)) -> parse_replica s = None.
Proof. exact replica_rejects. Qed.
Print Assumptions C10_malformed_rejected.
(** topic "a-1", partition 20: the text is "a-1-20" *)
Example C10_ex : print_replica [97; 45; 49] 20 = [97; 45; 49; 45; 50; 48] /\ in_u 32 20
  /\ parse_replica [97; 45] = None /\ parse_replica [97; 45; 120] = None.
Proof. repeat split; vm_compute; congruence. Qed.

(** C11 *)
Theorem C11_name_determines_offset : forall n ext, in_u 63 n -> no_dot ext -> parse_file_name (file_name n ext) = Some n.
Proof. exact parse_file_roundtrip. Qed.
Print Assumptions C11_name_determines_offset.
Theorem C11_names_injective : forall a b e1 e2, in_u 63 a -> in_u 63 b -> no_dot e1 -> no_dot e2 ->
  file_name a e1 = file_name b e2 -> a = b /\ e1 = e2.
Proof. exact file_injective. Qed.
Print Assumptions C11_names_injective.
Theorem C11_names_sort : forall a b ext, in_u 63 a -> in_u 63 b -> lex (file_name a ext) (file_name b ext) = (a ?= b).
Proof. exact file_order. Qed.
Print Assumptions C11_names_sort.
Example C11_ex : in_u 63 (2 ^ 62) /\ no_dot [108; 111; 103] /\ length (file_name (2 ^ 62) [108; 111; 103]) = 24%nat.
Proof. split; [unfold in_u; lia|]. split; [intros [H|[H|[H|[]]]]; lia|vm_compute; reflexivity]. Qed.
