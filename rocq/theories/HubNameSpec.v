(** What should hold of the names of packages on the hub. *)
From Coq Require Import ZArith List Bool.
Import ListNotations.
From Verif Require Import Base RegistryModel HubNameModel.
Open Scope Z_scope.

(** a lower case letter, a digit, ':', '-' or '_' *)
Definition good_char (c : Z) : Prop := 97 <= c <= 122 \/ 48 <= c <= 57 \/ c = 58 \/ c = 45 \/ c = 95.
Definition good_text (s : text) : Prop := s <> [] /\ forall c, In c s -> good_char c.
Definition good_names (p : pm) : Prop := good_text (h_group p) /\ good_text (h_name p).
(** the text of a version has neither slash nor at *)
Definition plain_version (v : text) : Prop := ~ In 47 v /\ ~ In 64 v.
(** digits, a dot, and something *)
Definition dotted (v : text) : Prop := exists a b, v = a ++ [46] ++ b /\ forall c, In c a -> 48 <= c <= 57.
