(** DataFetcher: vocabulary. *)
From Verif Require Import Base NameModel NeedModel SegModel FetchModel.

(** trial [n] gives the result [r], which is Data; the trials before gave results that are not *)
Definition first_data (trial : nat -> asked) (n : nat) (r : nres) : Prop :=
  trial n = Got r /\ r_status r = SData /\ forall j, (j < n)%nat -> exists r', trial j = Got r' /\ r_status r' <> SData.
(** the first [n] trials give results, none of them Data, and [r] is the last *)
Definition no_data (trial : nat -> asked) (n : nat) (r : nres) : Prop :=
  (0 < n)%nat /\ (forall j, (j < n)%nat -> exists r', trial j = Got r' /\ r_status r' <> SData) /\ trial (n - 1)%nat = Got r.
(** trial [n] gives no result, those before gave results that are not Data *)
Definition ends_at (trial : nat -> asked) (n : nat) (a : asked) : Prop :=
  trial n = a /\ (forall r, a <> Got r) /\ forall j, (j < n)%nat -> exists r', trial j = Got r' /\ r_status r' <> SData.
