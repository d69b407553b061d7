From Verif Require Import Base BaseProofs NameModel SpecModel NeedModel SegModel FetchModel FetchSpec.

Lemma loop_skip : forall need k j r0 c0 n, (n <= k)%nat ->
  (forall i, (i < n)%nat -> exists r', need None (j + i)%nat = Got r' /\ r_status r' <> SData) ->
  exists r1, fetch_loop need k j r0 c0 = fetch_loop need (k - n) (j + n) r1 (c0 ++ repeat None n)
    /\ (n = 0%nat -> r1 = r0) /\ ((0 < n)%nat -> need None (j + (n - 1))%nat = Got r1).
Proof.
  intros need k j r0 c0 n. revert k j r0 c0. induction n as [|n IH]; intros k j r0 c0 L H.
  - exists r0. cbn [repeat]. rewrite app_nil_r, Nat.add_0_r, Nat.sub_0_r. split; [reflexivity|]. split; [auto|lia].
  - destruct k as [|k]; [lia|]. destruct (H 0%nat) as (r' & E & ND); [lia|]. rewrite Nat.add_0_r in E. cbn [fetch_loop]. rewrite E.
    destruct (IH k (S j) r' (c0 ++ [None])) as (r1 & E1 & Z & P); [lia| |].
    { intros i I. replace (S j + i)%nat with (j + S i)%nat by lia. apply H. lia. }
    exists r1. split; [|split].
    + replace (S k - S n)%nat with (k - n)%nat by lia. replace (j + S n)%nat with (S j + n)%nat by lia. cbn [repeat].
      replace (c0 ++ None :: repeat None n) with ((c0 ++ [None]) ++ repeat (@None interest_config) n) by (rewrite <- app_assoc; reflexivity). rewrite <- E1.
      destruct (r_status r'); [reflexivity|congruence|reflexivity..].
    + lia.
    + intros _. destruct n as [|n]; [rewrite Z by reflexivity; rewrite Nat.sub_diag, Nat.add_0_r; exact E|].
      rewrite <- P by lia. f_equal. lia.
Qed.

Lemma fetch_first : forall need c max n r, (n < Z.to_nat max)%nat -> first_data (need None) n r -> data_fetcher need c max = Ok (r, repeat None (S n)).
Proof.
  intros need c max n r L (E & D & B). unfold data_fetcher. destruct (loop_skip need (Z.to_nat max) 0 no_res [] n ltac:(lia) B) as (r1 & E1 & _). rewrite E1.
  destruct (Z.to_nat max - n)%nat as [|k] eqn:K; [lia|]. cbn [fetch_loop Nat.add]. rewrite E, D. cbn [app]. change (@repeat (option interest_config) None (S n)) with (None :: @repeat (option interest_config) None n). rewrite repeat_cons. reflexivity.
Qed.

Lemma fetch_none : forall need c max r, no_data (need None) (Z.to_nat max) r -> data_fetcher need c max = Ok (r, repeat None (Z.to_nat max)).
Proof.
  intros need c max r (L & B & E). unfold data_fetcher. destruct (loop_skip need (Z.to_nat max) 0 no_res [] (Z.to_nat max) ltac:(lia) B) as (r1 & E1 & _ & P). rewrite E1, Nat.sub_diag.
  cbn [fetch_loop app]. specialize (P L). cbn [Nat.add] in P. rewrite E in P. injection P as <-. reflexivity.
Qed.

Lemma fetch_ends : forall need c max n a, (n < Z.to_nat max)%nat -> ends_at (need None) n a -> data_fetcher need c max = match a with Never => Hang | _ => Panic end.
Proof.
  intros need c max n a L (E & D & B). unfold data_fetcher. destruct (loop_skip need (Z.to_nat max) 0 no_res [] n ltac:(lia) B) as (r1 & E1 & _). rewrite E1.
  destruct (Z.to_nat max - n)%nat as [|k] eqn:K; [lia|]. cbn [fetch_loop Nat.add]. rewrite E. destruct a; [destruct (D r); reflexivity|reflexivity..].
Qed.

(** one of the three happens *)
Lemma trials_cases : forall trial k, (exists n r, (n < k)%nat /\ first_data trial n r) \/ (exists n a, (n < k)%nat /\ ends_at trial n a)
  \/ (forall j, (j < k)%nat -> exists r', trial j = Got r' /\ r_status r' <> SData).
Proof.
  intros trial k. induction k as [|k [(n & r & L & H)|[(n & a & L & H)|H]]].
  - right. right. intros j J. lia.
  - left. exists n, r. split; [lia|exact H].
  - right. left. exists n, a. split; [lia|exact H].
  - destruct (trial k) as [r| |] eqn:E.
    + assert (S : r_status r = SData \/ r_status r <> SData) by (destruct (r_status r); (left; reflexivity) || (right; discriminate)).
      destruct S as [S|S]; [left; exists k, r; split; [lia|]; split; [exact E|split; [exact S|exact H]]|].
      right. right. intros j J. destruct (Nat.eq_dec j k) as [->|NE]; [exists r; auto|apply H; lia].
    + right. left. exists k, Never. split; [lia|]. split; [exact E|]. split; [discriminate|exact H].
    + right. left. exists k, Crash. split; [lia|]. split; [exact E|]. split; [discriminate|exact H].
Qed.
