(** C131: activities and efficiencies by version *)
From Coq Require Import String.
From Coq Require Import Permutation Sorted.
From Verif Require Import Base PeaksModel DbModel DbProps RadioModel RadioSpec.
Local Open Scope Z_scope.

Lemma same_iff k l : same k l = true <-> k = l.
Proof. destruct k as [a b], l as [c d]. unfold same. cbn. rewrite andb_true_iff, !String.eqb_eq. split; [intros [-> ->]; reflexivity|intros E; now injection E]. Qed.
Lemma key_iff r s : key r = key s <-> a_volume r = a_volume s /\ a_isotope r = a_isotope s.
Proof. unfold key. split; [intros E; now injection E|intros [-> ->]; reflexivity]. Qed.

Lemma update_keys r l : (forall k, In k (map key (update r l)) <-> k = key r \/ In k (map key l)) /\ (NoDup (map key l) -> NoDup (map key (update r l))).
Proof.
  induction l as [|s l [IH1 IH2]]; cbn; [split; [intros k; split; [intros [<-|[]]; now left|intros [->|[]]; now left]|intros _; constructor; [easy|constructor]]|].
  destruct (same (key r) (key s)) eqn:E.
  - apply same_iff in E. assert (K : key (if a_version s <? a_version r then r else s) = key s) by (destruct (_ <? _); [exact E|reflexivity]). cbn. rewrite K. split; [|easy]. intros k. rewrite E. intuition congruence.
  - assert (E' : key r <> key s) by (intros K; apply same_iff in K; congruence). cbn. split.
    + intros k. rewrite IH1. tauto.
    + intros N. inversion N as [|? ? N1 N2]; subst. constructor; [|now apply IH2]. rewrite IH1. intros [K|K]; [now apply E'|now apply N1].
Qed.
Lemma update_in r l x : In x (update r l) -> x = r \/ In x l.
Proof. induction l as [|s l IH]; cbn; [intros [<-|[]]; now left|]. destruct (same _ _); cbn; [destruct (_ <? _); intros [<-|I]; auto|]. intros [<-|I]; [now right; left|]. destruct (IH I); auto. Qed.
(** the row of a group after an update is at least as new as the new row and as what was there *)
Lemma update_max r l x : NoDup (map key l) -> In x (update r l) -> (key x = key r -> a_version r <= a_version x) /\ forall y, In y l -> key y = key x -> a_version y <= a_version x.
Proof.
  induction l as [|s l IH]; cbn [update map]; intros N I.
  - destruct I as [<-|[]]. split; [lia|intros y []].
  - inversion N as [|? ? N1 N2]; subst. destruct (same (key r) (key s)) eqn:E.
    + apply same_iff in E. destruct I as [<-|I].
      * destruct (Z.ltb_spec (a_version s) (a_version r)); (split; [lia|]); intros y [<-|Iy] K; try lia; destruct N1; [rewrite <- E, <- K|rewrite <- K]; now apply in_map.
      * split; [intros K; destruct N1; rewrite <- E, <- K; now apply in_map|]. intros y [<-|Iy] K; [destruct N1; rewrite K; now apply in_map|]. assert (y = x); [|subst; lia].
        clear - N2 I Iy K. induction l as [|z l IH]; [destruct I|]. cbn in N2. inversion N2 as [|? ? M1 M2]; subst. destruct I as [->|I], Iy as [->|Iy]; [reflexivity| | |now apply IH]; destruct M1; [rewrite <- K|rewrite K]; now apply in_map.
    + destruct I as [<-|I].
      * split; [intros K; symmetry in K; apply same_iff in K; congruence|]. intros y [<-|Iy] K; [lia|]. destruct N1. rewrite <- K. now apply in_map.
      * destruct (IH N2 I) as [H1 H2]. split; [exact H1|]. intros y [<-|Iy] K; [|now apply H2]. exfalso. assert (Kx : In (key x) (map key (update r l))) by now apply in_map. apply (proj1 (update_keys r l)) in Kx. destruct Kx as [Kx|Kx]; [rewrite Kx in K; symmetry in K; apply same_iff in K; congruence|]. rewrite <- K in Kx. now destruct N1.
Qed.
Lemma grouped t : let g := fold_left (fun l r => update r l) t [] in
  NoDup (map key g) /\ (forall k, In k (map key g) <-> exists r, In r t /\ key r = k) /\ (forall x, In x g -> In x t /\ forall y, In y t -> key y = key x -> a_version y <= a_version x).
Proof.
  induction t as [|r t IH] using rev_ind; cbn; [split; [constructor|]; split; [intros k; split; [intros []|intros (r & [] & _)]|intros x []]|].
  rewrite fold_left_app. cbn [fold_left]. cbn in IH. set (g := fold_left (fun l r => update r l) t []) in *. destruct IH as (N & K & M). split; [now apply update_keys|]. split.
  - intros k. rewrite (proj1 (update_keys r g)), K. split.
    + intros [->|(s & I & E)]; [exists r; split; [apply in_or_app; right; now left|reflexivity]|exists s; split; [apply in_or_app; now left|exact E]].
    + intros (s & I & E). apply in_app_or in I. destruct I as [I|[<-|[]]]; [right; now exists s|left; now symmetry].
  - intros x I. split; [destruct (update_in r g x I) as [->|J]; apply in_or_app; [right; now left|left; now apply M]|].
    destruct (update_max r g x N I) as [U1 U2]. intros y J E. apply in_app_or in J. destruct J as [J|[<-|[]]]; [|now apply U1].
    assert (Ky : In (key y) (map key g)) by (apply K; now exists y). apply in_map_iff in Ky. destruct Ky as (z & Ez & Iz). destruct (M z Iz) as [_ Mz]. specialize (Mz y J ltac:(now symmetry)). specialize (U2 z Iz ltac:(congruence)). lia.
Qed.
Lemma latest_spec t v : NoDup (map fst (latest t v)) /\
  (forall vol iso, In (vol, iso) (map fst (latest t v)) <-> exists r, In r t /\ a_volume r = vol /\ a_isotope r = iso /\ a_version r <= v) /\
  (forall vol iso q, In (vol, iso, q) (latest t v) -> exists r, newest t v r /\ a_volume r = vol /\ a_isotope r = iso /\ a_value r = q).
Proof.
  unfold latest. destruct (grouped (filter (fun r => a_version r <=? v) t)) as (N & K & M). set (g := fold_left _ _ _) in *. rewrite map_map. cbn [fst]. change (fun r => (a_volume r, a_isotope r)) with key. split; [exact N|]. split.
  - intros vol iso. rewrite K. split.
    + intros (r & I & E). apply filter_In in I. destruct I as [I V]. apply Z.leb_le in V. exists r. injection E as <- <-. tauto.
    + intros (r & I & <- & <- & V). exists r. split; [apply filter_In; split; [exact I|now apply Z.leb_le]|reflexivity].
  - intros vol iso q I. apply in_map_iff in I. destruct I as (r & E & I). injection E as <- <- <-. exists r. destruct (M r I) as [I1 I2]. apply filter_In in I1. destruct I1 as [I1 V]. apply Z.leb_le in V. split; [|tauto]. split; [exact I1|]. split; [exact V|].
    intros s Is E1 E2 Vs. apply I2; [apply filter_In; split; [exact Is|now apply Z.leb_le]|]. now apply key_iff.
Qed.

(** With a version, each table has one value for each volume and isotope that has a version not above it, and it is that of the newest of them. *)
Theorem C131_version activity efficiency v : exists a e, RadioactivityData activity efficiency (Some v) = Ok (a, e) /\
  forall t x, (t, x) = (activity, a) \/ (t, x) = (efficiency, e) ->
    NoDup (map fst x) /\ (forall vol iso, In (vol, iso) (map fst x) <-> exists r, In r t /\ a_volume r = vol /\ a_isotope r = iso /\ a_version r <= v) /\
    (forall vol iso q, In (vol, iso, q) x -> exists r, newest t v r /\ a_volume r = vol /\ a_isotope r = iso /\ a_value r = q) /\
    (unambiguous t -> forall r, newest t v r -> In (a_volume r, a_isotope r, a_value r) x).
Proof.
  exists (latest activity v), (latest efficiency v). split; [reflexivity|]. intros t x E. assert (x = latest t v) as -> by (destruct E as [E|E]; injection E as -> ->; reflexivity). destruct (latest_spec t v) as (N & K & V). split; [exact N|]. split; [exact K|]. split; [exact V|].
  intros U r (I & L & B). assert (Kr : In (a_volume r, a_isotope r) (map fst (latest t v))) by (apply K; now exists r). apply in_map_iff in Kr. destruct Kr as ([k q] & E' & Iq). cbn in E'. subst k. destruct (V _ _ _ Iq) as (s & (Is & Ls & Bs) & E1 & E2 & <-).
  assert (a_value s = a_value r) as <-; [|exact Iq]. apply (U r s I Is E1 E2). specialize (B s Is E1 E2 Ls). specialize (Bs r I (eq_sym E1) (eq_sym E2) L). lia.
Qed.
Print Assumptions C131_version.

(** What is added later, with newer versions, does not change what a version gives. *)
Theorem C131_reproducible activity efficiency new_activity new_efficiency v : (forall r, In r new_activity \/ In r new_efficiency -> v < a_version r) ->
  RadioactivityData (activity ++ new_activity) (efficiency ++ new_efficiency) (Some v) = RadioactivityData activity efficiency (Some v).
Proof.
  intros H. assert (F : forall t n, (forall r, In r n -> v < a_version r) -> latest (t ++ n) v = latest t v).
  { intros t n Hn. unfold latest. rewrite filter_app. replace (filter (fun r => a_version r <=? v) n) with (@nil arow); [now rewrite app_nil_r|]. symmetry. induction n as [|r n IH]; [reflexivity|]. cbn. destruct (Z.leb_spec (a_version r) v) as [L|L]; [specialize (Hn r (or_introl eq_refl)); lia|]. apply IH. intros s I. apply Hn. now right. }
  unfold RadioactivityData. rewrite !F; [reflexivity| |]; intros r I; apply H; tauto.
Qed.
Print Assumptions C131_reproducible.

Lemma max_version_spec t : match max_version t with None => t = [] | Some m => (exists r, In r t /\ a_version r = m) /\ forall r, In r t -> a_version r <= m end.
Proof.
  destruct t as [|r t]; cbn; [reflexivity|]. assert (G : forall t m, let x := fold_left (fun m r => Z.max m (a_version r)) t m in m <= x /\ (forall r, In r t -> a_version r <= x) /\ (x = m \/ exists r, In r t /\ a_version r = x)).
  { clear. induction t as [|s t IH]; intros m; cbn; [split; [lia|]; split; [intros r []|now left]|]. destruct (IH (Z.max m (a_version s))) as (A & B & C). split; [lia|]. split; [intros r [<-|I]; [lia|now apply B]|].
    destruct C as [C|(z & I & C)]; [|right; exists z; tauto]. rewrite C. destruct (Z.max_spec m (a_version s)) as [[_ E]|[_ E]]; rewrite E; [right; exists s; tauto|now left]. }
  destruct (G t (a_version r)) as (A & B & C). split.
  - destruct C as [C|(z & I & C)]; [exists r; split; [now left|now symmetry]|exists z; tauto].
  - intros s [<-|I]; [exact A|now apply B].
Qed.
(** Without a version the activities are the newest of all, and an error is raised if and only if there are none; the efficiencies are those of the version of the newest activity. *)
Theorem C131_default activity efficiency : (RadioactivityData activity efficiency None = Err database_error <-> activity = []) /\
  forall a e, RadioactivityData activity efficiency None = Ok (a, e) -> exists v, (exists r, In r activity /\ a_version r = v) /\ (forall r, In r activity -> a_version r <= v) /\ RadioactivityData activity efficiency (Some v) = Ok (a, e) /\
    forall vol iso q, In (vol, iso, q) a -> exists r, In r activity /\ a_volume r = vol /\ a_isotope r = iso /\ a_value r = q /\ forall s, In s activity -> a_volume s = vol -> a_isotope s = iso -> a_version s <= a_version r.
Proof.
  unfold RadioactivityData. pose proof (max_version_spec activity) as M. destruct (max_version activity) as [m|].
  - split; [split; [intros K; discriminate K|]; intros ->; destruct M as [(r & [] & _) _]|]. intros a e E. injection E as <- <-. destruct M as [M1 M2]. exists m. split; [exact M1|]. split; [exact M2|]. split; [reflexivity|].
    intros vol iso q I. destruct (proj2 (proj2 (latest_spec activity m)) _ _ _ I) as (r & (I1 & _ & B) & <- & <- & <-). exists r. repeat (split; [first [exact I1|reflexivity]|]). intros s Is E1 E2. apply B; auto.
  - split; [tauto|]. intros a e E. discriminate E.
Qed.
Print Assumptions C131_default.

(** Shown false: that without a version the efficiencies are the newest. *)
Definition ex_row (vol : string) (version : Z) (q : Q) : arow := {| a_volume := vol; a_isotope := "Bi214"; a_version := version; a_value := q |}.
Theorem C131_default_refuted : ~ forall activity efficiency a e r, RadioactivityData activity efficiency None = Ok (a, e) -> unambiguous efficiency -> In r efficiency ->
  (forall s, In s efficiency -> a_volume s = a_volume r -> a_isotope s = a_isotope r -> a_version s <= a_version r) -> In (a_volume r, a_isotope r, a_value r) e.
Proof.
  intros H. specialize (H [ex_row "COPPER" 1 5] [ex_row "COPPER" 1 2; ex_row "COPPER" 2 3] _ _ (ex_row "COPPER" 2 3) eq_refl). cbn in H. destruct H as [K|[]].
  - intros r s [<-|[<-|[]]] [<-|[<-|[]]] _ _ E; try reflexivity; discriminate E.
  - right. now left.
  - intros s [<-|[<-|[]]] _ _; cbn; lia.
  - discriminate K.
Qed.
Print Assumptions C131_default_refuted.
Example C131_ex : RadioactivityData [ex_row "COPPER" 1 5; ex_row "TEFLON" 0 1; ex_row "COPPER" 2 6; ex_row "COPPER" 3 7] [ex_row "TEFLON" 3 4] (Some 2) = Ok ([("COPPER", "Bi214", 6%Q); ("TEFLON", "Bi214", 1%Q)]%string, []).
Proof. reflexivity. Qed.

Lemma open_iff {A} run (d : dated A) : valid_open (Z.abs run) d = true <-> in_force run d.
Proof.
  unfold valid_open, in_force. rewrite andb_true_iff, Z.leb_le. destruct (upto d) as [m|]; split; intros [H1 H2]; (split; [exact H1|]).
  - intros m' E. injection E as <-. now apply Z.leb_le.
  - apply Z.leb_le. now apply H2.
  - intros m' E. discriminate E.
  - reflexivity.
Qed.
(** The boxes of the PMTs and the frequencies of their noise are those in force, the boxes in order of sensor; the sign of the run does not count. *)
Theorem C131_noise boxes frequencies run : exists keep_boxes keep_frequencies, (forall d, keep_boxes d = true <-> in_force run d) /\ (forall d, keep_frequencies d = true <-> in_force run d) /\
  Permutation (fst (PMTLowFrequencyNoise boxes frequencies run)) (map what (filter keep_boxes boxes)) /\ StronglySorted (fun a b => fst a <= fst b) (fst (PMTLowFrequencyNoise boxes frequencies run)) /\
  snd (PMTLowFrequencyNoise boxes frequencies run) = map what (filter keep_frequencies frequencies) /\ PMTLowFrequencyNoise boxes frequencies (- run) = PMTLowFrequencyNoise boxes frequencies run.
Proof.
  exists (valid_open (Z.abs run)), (valid_open (Z.abs run)). split; [apply open_iff|]. split; [apply open_iff|]. unfold PMTLowFrequencyNoise. cbn [fst snd]. rewrite Z.abs_opp. split; [apply sort_by_perm|]. split; [|split; reflexivity].
  assert (S : StronglySorted (fun a b : Z * Z => (fst a <=? fst b) = true) (sort_by (fun a b => fst a <=? fst b) (current_open (Z.abs run) boxes))).
  { apply sort_by_sorted; intros; rewrite ?Z.leb_le in *; lia. }
  revert S. generalize (sort_by (fun a b : Z * Z => fst a <=? fst b) (current_open (Z.abs run) boxes)). intros l S. induction S as [|x l S IH F]; constructor; [exact IH|]. revert F. apply Forall_impl. intros y. apply Z.leb_le.
Qed.
Print Assumptions C131_noise.
(** Shown false: that for a simulation (run 0) the boxes are those of the run whose sensors are used. *)
Theorem C131_simulation_refuted : ~ forall boxes frequencies, PMTLowFrequencyNoise boxes frequencies 0 = PMTLowFrequencyNoise boxes frequencies (effective_run 0).
Proof. intros H. specialize (H [{| from := 1; upto := None; what := (0, 2) |}] []). discriminate H. Qed.
Print Assumptions C131_simulation_refuted.
Example C131_noise_ex : PMTLowFrequencyNoise [{| from := 1; upto := None; what := (3, 1) |}; {| from := 0; upto := Some 10; what := (2, 0) |}; {| from := 0; upto := Some 4; what := (1, 0) |}] [{| from := 0; upto := None; what := (100%Q, [1%Q; 2%Q]) |}] (-5) = ([(2, 0); (3, 1)], [(100%Q, [1%Q; 2%Q])]).
Proof. reflexivity. Qed.
