(** Independent specification for shapefiles written: outlines.  Does not mention the model's functions. *)
From Coq Require Import List Reals.
Import ListNotations.
Local Open Scope R_scope.

(** a ring is closed if its last vertex repeats its first; [opens r o]: [o] are its vertices without that repetition *)
Definition closes (r o : list (R * R)) : Prop := exists p t, o = p :: t /\ r = o ++ [p].
Definition opens (r o : list (R * R)) : Prop := closes r o \/ r = o /\ ~ exists q, closes r q.
(** [s] lists the same outline as [r], closed: it may begin with another vertex and may run the other way round *)
Definition same_outline (r s : list (R * R)) : Prop := exists a b, opens r (a ++ b) /\ (closes s (b ++ a) \/ closes s (rev (b ++ a))).
