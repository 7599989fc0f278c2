(** Semantic version texts. *)
From Verif Require Import Base FmtSpec VersionModel.

Definition numbers (v : version) : list N := [v_major v; v_minor v; v_patch v].

(** A tag with its separator, nothing when the tag is absent. *)
Definition tagged (sep : N) (tag : list N) : list N := match tag with [] => [] | _ => sep :: tag end.

(** MAJOR.MINOR.PATCH[-pre][+build] *)
Definition version_text (v : version) (t : list N) : Prop :=
  exists a b c, decimal (v_major v) a /\ decimal (v_minor v) b /\ decimal (v_patch v) c /\
    t = a ++ 46 :: b ++ 46 :: c ++ tagged 45 (v_pre v) ++ tagged 43 (v_build v).

(** Members of the right types. *)
Definition version_ok (v : version) : Prop :=
  v_major v < 2 ^ 32 /\ v_minor v < 2 ^ 32 /\ v_patch v < 2 ^ 32 /\
  size (v_pre v) < 2 ^ 16 /\ size (v_build v) < 2 ^ 16.

(** Tags that can be told apart: no '+' inside, the pre-release tag neither begins nor
    ends with '-'. *)
Definition tags_ok (v : version) : Prop :=
  ~ In 43 (v_pre v) /\ ~ In 43 (v_build v) /\ hd 0 (v_pre v) <> 45 /\ last (v_pre v) 0 <> 45.
