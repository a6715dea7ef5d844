(** C57: the number of electrons of each hit before and after the drift *)
From Verif Require Import Base Arrays PeaksModel PeaksProofs BuffersModel BuffersProofs BuffersEvent BuffersProps WfmProps XyProps DbThr KrProps DetsimModel DetsimSpec DetsimProps DetsimKeep DetsimElectrons.
From Coq Require Import Qabs.
Local Open Scope Q_scope.

(** ---- specification ---- *)
(** [n] is the integer nearest to [x]; of two at the same distance, the even one *)
Definition nearest (x : Q) (n : Z) : Prop := Qabs (inject_Z n - x) <= 1 # 2 /\ (Qabs (inject_Z n - x) == 1 # 2 -> Z.even n = true).

Lemma np_round_nearest x : nearest x (np_round x).
Proof.
  unfold nearest, np_round. pose proof (Qfloor_le x) as F1. pose proof (Qlt_floor x) as F2. rewrite inject_Z_plus in F2. change (inject_Z 1) with 1 in F2. set (f := Qfloor x) in *. clearbody f.
  assert (A : forall y, Qabs y <= 1 # 2 <-> - (1 # 2) <= y <= 1 # 2) by (intros y; apply Qabs_Qle_condition).
  destruct (Qltb_spec (x - inject_Z f) (1 # 2)) as [C|C]; [|destruct (Qltb_spec (1 # 2) (x - inject_Z f)) as [D|D]].
  - split; [apply A; lra|]. intros E. exfalso. rewrite Qabs_neg in E by lra. lra.
  - rewrite inject_Z_plus. change (inject_Z 1) with 1. split; [apply A; lra|]. intros E. exfalso. rewrite Qabs_pos in E by lra. lra.
  - destruct (Z.even f) eqn:Ev; [split; [apply A; lra|auto]|]. rewrite inject_Z_plus. change (inject_Z 1) with 1. split; [apply A; lra|]. intros _. rewrite Z.even_add, Ev. reflexivity.
Qed.
Lemma rmap_index {A B} (f : nat * A -> result B) (l : list A) k out : rmap f (combine (seq k (length l)) l) = Ok out -> forall i a, nth_error l i = Some a -> exists b, nth_error out i = Some b /\ f ((k + i)%nat, a) = Ok b.
Proof.
  revert k out. induction l as [|x l IH]; intros k out H i a Hi; [destruct i; discriminate|]. cbn [length seq combine rmap] in H. destruct (f (k, x)) as [b|] eqn:F; [|discriminate]. cbn [rbind] in H. destruct (rmap f (combine (seq (S k) (length l)) l)) as [bs|] eqn:R; [|discriminate]. cbn [rbind] in H. injection H as <-.
  destruct i as [|i]; cbn in Hi |- *; [injection Hi as <-; exists b; now rewrite Nat.add_0_r|]. destruct (IH (S k) bs R i a Hi) as (c & Hc & Ec). exists c. split; [assumption|]. now replace (k + S i)%nat with (S k + i)%nat by lia.
Qed.

Section Numbers.
Variable poisson : nat -> nat.
Variable gauss : nat -> Q.
Variable sqrtQ : Q -> Q.
Variable decay : nat -> nat -> Q.
(** The electrons of a hit with energy e: with a mean e / wi of variance below 1 its own Poisson draw; otherwise the
    integer nearest to the normal draw with that mean and variance, or none when that is negative. *)
Theorem C57_ionization wi fano es n : generate_ionization_electrons poisson gauss sqrtQ wi fano es = Ok n -> length n = length es /\
  forall i e, nth_error es i = Some e -> exists k, nth_error n i = Some k /\
    (e / wi * fano < 1 -> 0 <= e / wi /\ k = poisson i)
    /\ (1 <= e / wi * fano -> exists m, nearest (e / wi + sqrtQ (e / wi * fano) * gauss i) m /\ Z.of_nat k = Z.max 0 m).
Proof.
  intros H. split; [eapply ionization_length; eassumption|]. unfold generate_ionization_electrons in H. destruct (Qeqb wi 0); [discriminate|]. intros i e He.
  destruct (rmap_index _ es 0%nat n H i e He) as (k & Hk & F). exists k. split; [assumption|]. cbn [fst snd plus] in F. unfold ionization in F. cbn zeta in F. destruct (Qltb_spec (e / wi * fano) 1) as [C|C].
  - split; [|intros; lra]. intros _. destruct (Qltb_spec (e / wi) 0); [discriminate|]. injection F as <-. split; [assumption|reflexivity].
  - split; [intros; lra|]. intros _. exists (np_round (e / wi + sqrtQ (e / wi * fano) * gauss i)). split; [apply np_round_nearest|]. injection F as <-. destruct (Z.ltb_spec (np_round (e / wi + sqrtQ (e / wi * fano) * gauss i)) 0); lia.
Qed.
(** After the drift each hit keeps the electrons whose time before attachment is greater than the time of drift, and no other one *)
Theorem C57_survivors v zs n n' : drift_electrons decay v zs n = Ok n' -> length zs = length n /\ length n' = length n /\
  forall i z k, nth_error zs i = Some z -> nth_error n i = Some k -> exists alive, nth_error n' i = Some (length alive) /\ NoDup alive /\ forall j, In j alive <-> (j < k)%nat /\ z / v < decay i j.
Proof.
  unfold drift_electrons. destruct (Qeqb v 0); [discriminate|]. destruct (Nat.eqb_spec (length zs) (length n)) as [L|L]; [|discriminate]. cbn [negb]. destruct zs as [|z0 zs0] eqn:Z; [discriminate|]. rewrite <- Z in *. intros H. injection H as <-.
  split; [assumption|]. split; [rewrite length_mapi, combine_length; lia|]. intros i z k Hz Hk. exists (filter (fun j => Qltb (z / v) (decay i j)) (seq 0 k)). split; [|split].
  - unfold mapi. rewrite nth_error_mapi_from. assert (E : nth_error (combine zs n) i = Some (z, k)). { clear - Hz Hk. revert zs n Hz Hk. induction i as [|i IH]; intros [|a zs] [|b n] Hz Hk; try discriminate; cbn in *; [congruence|auto]. } rewrite E. reflexivity.
  - apply NoDup_filter, seq_NoDup.
  - intros j. rewrite filter_In, in_seq, Qltb_lt. intuition lia.
Qed.
End Numbers.
Print Assumptions C57_ionization.
Print Assumptions C57_survivors.
Example C57_numbers_ex : generate_ionization_electrons (fun _ => 7%nat) (fun i => if (i =? 1)%nat then - (9 # 1) else 1 # 2) (fun x => x) 2 (1 # 2) [200; 8; 1] = Ok [125; 0; 7]%nat
  /\ drift_electrons (fun i j => qn (j + i)) 2 [4; 6] [5; 4]%nat = Ok [2; 1]%nat.
Proof. split; vm_compute; reflexivity. Qed.
