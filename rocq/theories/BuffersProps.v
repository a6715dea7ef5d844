(** Properties C14, C15 and C16 *)
From Verif Require Import Base PeaksModel PeaksSpec PeaksProofs PeaksMore PeaksFind PeaksProps
  BuffersModel BuffersSpec BuffersProofs BuffersSlice BuffersEvent.
Local Open Scope nat_scope.

(** ** C15 *)
Theorem C15_triggers m thr stand_off :
  exists ts, find_signal_start m thr stand_off = Ok ts /\ StronglySorted lt ts /\
  forall i, In i ts <-> is_trigger m thr stand_off i.
Proof. exact (find_signal_spec m thr stand_off). Qed.

Example C15_ex : find_signal_start {| cols := 7; rows := [[3; 0; 0; 3; 0; 1; 0]; [0; 2; 0; 0; 0; 2; 0]]%Q |} 1 1%Z = Ok [0; 3; 5].
Proof. reflexivity. Qed.

(** every sample above threshold belongs to the group opened by the last trigger before it:
    all gaps between above-threshold samples from the trigger to it are within the stand-off *)
Theorem C15_groups m thr stand_off ts i : find_signal_start m thr stand_off = Ok ts -> hot m thr i ->
  exists t, In t ts /\ t <= i /\
  forall j, hot m thr j -> t < j <= i -> exists j', hot m thr j' /\ t <= j' < j /\ (Z.of_nat j - Z.of_nat j' <= stand_off)%Z.
Proof.
  intros E Hi. destruct (find_signal_spec m thr stand_off) as (ts' & E' & _ & Hin). rewrite E in E'. injection E' as <-.
  revert Hi. induction i as [i IH] using lt_wf_ind. intros Hi.
  destruct (in_dec Nat.eq_dec i ts) as [I|I].
  - exists i. split; [assumption|]. split; [lia|]. intros j _ Hj. lia.
  - assert (N : exists j, hot m thr j /\ j < i /\ (Z.of_nat i - Z.of_nat j <= stand_off)%Z).
    { set (P := fun j => In j (indices_above_threshold (sum_over_sensors m) thr)).
      assert (D : forall j, {P j} + {~ P j}) by (intros; apply in_dec, Nat.eq_dec).
      assert (K : (exists j, j < i /\ P j /\ (Z.of_nat i - Z.of_nat j <= stand_off)%Z) \/
                  (forall j, j < i -> P j -> (stand_off < Z.of_nat i - Z.of_nat j)%Z)).
      { clear - D. assert (forall n, n <= i -> (exists j, j < n /\ P j /\ (Z.of_nat i - Z.of_nat j <= stand_off)%Z) \/
                  (forall j, j < n -> P j -> (stand_off < Z.of_nat i - Z.of_nat j)%Z)) as K; [|apply (K i); lia].
        induction n as [|n IH]; intros Hn; [right; lia|]. destruct IH as [(j & ? & ? & ?)|H]; [lia| |].
        - left. exists j. repeat split; try assumption. lia.
        - destruct (D n) as [Pn|Pn].
          + destruct (Z.le_gt_cases (Z.of_nat i - Z.of_nat n) stand_off).
            * left. exists n. repeat split; try assumption. lia.
            * right. intros j Hj Pj. destruct (Nat.eq_dec j n) as [->|]; [lia|]. apply H; [lia|assumption].
          + right. intros j Hj Pj. destruct (Nat.eq_dec j n) as [->|]; [contradiction|]. apply H; [lia|assumption]. }
      destruct K as [(j & Hj & Pj & Hl)|K].
      - exists j. apply hot_in in Pj. repeat split; try assumption; apply Pj.
      - exfalso. apply I. apply Hin. split; [assumption|]. intros j Hj Hl. apply K; [assumption|]. now apply hot_in. }
    destruct N as (j & Hj & Hl & Hg). destruct (IH j Hl Hj) as (t & Ht & Htj & G). exists t. split; [assumption|]. split; [lia|].
    intros x Hx Hxi. destruct (Nat.le_gt_cases x j) as [L|L].
    + apply G; [assumption|lia].
    + exists j. split; [assumption|]. split; [lia|]. lia.
Qed.

(** ** C14 *)
Lemma Forall2_nexus (R : Q -> out_row -> Prop) l rows nexus : Forall2 (fun t row => time_stamp row = t /\ nexus_evt row = nexus) l rows ->
  Forall (fun row => nexus_evt row = nexus) rows.
Proof. induction 1; constructor; tauto. Qed.

Lemma write_numbers i base nexus times events :
  exists n, n <= length times /\ map evt_number (write_from i base nexus times events) = map (fun j => base + i + Z.of_nat j)%Z (seq 0 n) /\
  Forall (fun row => nexus_evt row = nexus) (write_from i base nexus times events).
Proof.
  revert i events; induction times as [|t times IH]; intros i events; [exists 0; repeat split; constructor|].
  destruct events as [|[e k] events]; [exists 0; cbn; split; [lia|]; split; [reflexivity|constructor]|].
  destruct (IH (i + 1)%Z events) as (n & Hn & En & Fn). exists (S n). cbn [write_from map length]. split; [lia|]. split.
  - cbn [evt_number seq map]. f_equal; [cbn; lia|]. rewrite En, <- seq_shift, map_map. apply map_ext. intros; lia.
  - constructor; [reflexivity|assumption].
Qed.

Lemma rmap_length {A B} (f : A -> result B) l bs : rmap f l = Ok bs -> length bs = length l.
Proof. intros E. apply rmap_forall2 in E. symmetry. exact (Forall2_len _ _ _ E). Qed.

Definition numbered (c : bcfg) (nexus : Z) (rows : list out_row) : Prop :=
  exists n, (Z.of_nat n <= max_subevt c)%Z /\
  map evt_number rows = map (fun j => nexus * max_subevt c + Z.of_nat j)%Z (seq 0 n) /\
  Forall (fun row => nexus_evt row = nexus) rows.

Lemma max_subevt_pos c k : (0 < pmt_wid c)%Q -> 0 < k -> (buffer_len c == qn k * pmt_wid c)%Q -> (buffer_len c <= max_time c)%Q ->
  (1 <= max_subevt c)%Z.
Proof.
  intros Hp Hk El Hm. assert (HL : (0 < buffer_len c)%Q) by (rewrite El; pose proof (qn_pos k Hk); nra).
  destruct (proj1 (cdivQ_spec (max_time c) (buffer_len c) _ HL) eq_refl) as [_ B]. fold (max_subevt c) in B.
  assert (inject_Z 0 < inject_Z (max_subevt c))%Q as K; [|apply inj_lt_inv in K; lia].
  change (inject_Z 0) with 0%Q. apply Qnot_le_lt. intros C. nra.
Qed.

Lemma save_buffers_numbers c order nexus ts pb pm sb sm k rows :
  (0 < pmt_wid c)%Q -> 0 < k -> (buffer_len c == qn k * pmt_wid c)%Q -> (buffer_len c <= max_time c)%Q ->
  (Z.of_nat (cols pm) <= Qceiling (max_time c / pmt_wid c) + 1)%Z ->
  save_buffers c order nexus ts pb pm sb sm = Ok rows -> numbered c nexus rows.
Proof.
  intros Hp Hk El Hm Hc E. unfold save_buffers in E.
  destruct (find_signal_start pm (trigger_threshold c) (stand_off c)) as [trs|] eqn:Ef; [|discriminate]. cbn [rbind] in E.
  pose proof (triggers_bound pm _ _ _ _ k trs Hp Hk El Hm Hc Ef) as B. fold (max_subevt c) in B.
  pose proof (max_subevt_pos c k Hp Hk El Hm) as B1.
  destruct trs as [|x trs].
  - injection E as <-. exists 0. split; [lia|]. split; [reflexivity|constructor].
  - destruct (trigger_times (x :: trs) ts pb) as [times|] eqn:Et; [|discriminate]. cbn [rbind] in E.
    destruct (position_signal c (x :: trs) pb pm sb sm) as [bufs|]; [|discriminate]. cbn [rbind] in E.
    destruct (rmap order bufs) as [ords|]; [|discriminate]. cbn [rbind] in E. injection E as <-.
    apply rmap_length in Et. unfold write_buffers.
    destruct (write_numbers 0 (ic_event_number_base (max_subevt c) nexus) nexus times ords) as (n & Hn & En & Fn).
    exists n. split; [rewrite Et in Hn; lia|]. split; [|assumption]. rewrite En. apply map_ext. intros; unfold ic_event_number_base; lia.
Qed.

Lemma numbered_in c nexus rows row : numbered c nexus rows -> In row rows ->
  nexus_evt row = nexus /\ (nexus * max_subevt c <= evt_number row < nexus * max_subevt c + max_subevt c)%Z.
Proof.
  intros (n & Hn & En & Fn) Hr. rewrite Forall_forall in Fn. split; [now apply Fn|].
  apply (in_map evt_number) in Hr. rewrite En in Hr. apply in_map_iff in Hr. destruct Hr as (j & <- & Hj). apply in_seq in Hj. lia.
Qed.
Lemma numbered_nodup c nexus rows : numbered c nexus rows -> NoDup (map evt_number rows).
Proof.
  intros (n & _ & -> & _). apply FinFun.Injective_map_NoDup; [|apply seq_NoDup]. intros x y E. lia.
Qed.
Lemma NoDup_app_disjoint {A} (l m : list A) : NoDup l -> NoDup m -> (forall x, In x l -> ~ In x m) -> NoDup (l ++ m).
Proof.
  induction 1 as [|a l Ha H IH]; cbn; intros Hm D; [assumption|]. constructor.
  - rewrite in_app_iff. intros [C|C]; [contradiction|]. apply (D a); [now left|assumption].
  - apply IH; [assumption|]. intros x Hx. apply D. now right.
Qed.

Lemma buffy_event_numbers c pdb sdb e k rows :
  (0 < pmt_wid c)%Q -> (0 < sipm_wid c)%Q -> 0 < k -> (buffer_len c == qn k * pmt_wid c)%Q -> (buffer_len c <= max_time c)%Q ->
  buffy_event c pdb sdb e = Ok rows -> numbered c (sim_evt e) rows.
Proof.
  intros Hp Hs Hk El Hm E. unfold buffy_event in E.
  assert (Hnil : Ok [] = Ok rows -> numbered c (sim_evt e) rows).
  { intros X. injection X as <-. exists 0. pose proof (max_subevt_pos c k Hp Hk El Hm). split; [lia|]. split; [reflexivity|constructor]. }
  destruct (sim_pmts e) as [|x xs] eqn:Ex; [auto|]. destruct (sim_sipms e) as [|y ys] eqn:Ey; [auto|]. clear Hnil.
  rewrite <- Ex, <- Ey in E.
  destruct (first_last_spec (sim_pmts e) (sim_sipms e) (pmt_wid c) (sipm_wid c)) as (t0 & t1 & Et & Ht & _); try congruence.
  rewrite Et in E. cbn [rbind] in E.
  assert (HM : (0 < max_time c)%Q) by (rewrite El in Hm; pose proof (qn_pos k Hk); nra).
  destruct (bin_sensors_spec (sim_pmts e) (pmt_wid c) t0 t1 (max_time c) Hp Ht HM) as (ap & np & Np & P1 & P2 & P3 & _ & EP).
  destruct (bin_sensors_spec (sim_sipms e) (sipm_wid c) t0 t1 (max_time c) Hs Ht HM) as (asi & ns & Ns & S1 & S2 & S3 & _ & ES).
  rewrite EP, ES in E. apply save_buffers_numbers with (k := k) in E; try assumption.
  cbn [b_wfs]. unfold binned_mat. cbn [cols]. rewrite grid_length. lia.
Qed.

Definition reserved (configured : bcfg) : Z :=
  Qceiling (Qmax (max_time configured) (buffer_len configured) / buffer_len configured).

Theorem C14_event_numbers_unique mus c pmt_db sipm_db events k rows :
  (0 < pmt_wid c)%Q -> (0 < sipm_wid c)%Q -> 0 < k -> (buffer_len c == qn k * pmt_wid c)%Q ->
  NoDup (map sim_evt events) ->
  buffy mus c pmt_db sipm_db events = Ok rows ->
  NoDup (map evt_number rows) /\
  (forall row, In row rows -> In (nexus_evt row) (map sim_evt events) /\ nexus_evt row = (evt_number row / reserved c)%Z).
Proof.
  intros Hp Hs Hk El Hn E. unfold buffy in E.
  destruct (check_max_time mus (max_time c) (buffer_len c)) as [mt|] eqn:Em; [|discriminate]. cbn [rbind] in E.
  set (c' := Build_bcfg _ _ _ _ _ _) in E.
  assert (Hmt : (buffer_len c <= mt)%Q /\ (mt == Qmax (max_time c) (buffer_len c))%Q).
  { unfold check_max_time in Em. destruct (negb _); [discriminate|]. destruct (Qltb_spec (max_time c) (buffer_len c)) as [L|L]; injection Em as <-.
    - split; [lra|]. rewrite Q.max_r; lra.
    - split; [lra|]. rewrite Q.max_l; lra. }
  destruct Hmt as [Hmt Emt].
  assert (Er : reserved c = max_subevt c').
  { unfold reserved, max_subevt. cbn [max_time buffer_len c']. symmetry. apply Qceiling_comp. unfold Qdiv. apply Qmult_comp; [exact Emt|reflexivity]. }
  destruct (rmap (buffy_event c' pmt_db sipm_db) events) as [files|] eqn:Ef; [|discriminate]. cbn [rbind] in E. injection E as <-.
  apply rmap_forall2 in Ef.
  pose proof (max_subevt_pos c' k Hp Hk El Hmt) as Hpos.
  assert (F : Forall2 (fun e f => numbered c' (sim_evt e) f) events files).
  { clear Hn. induction Ef as [|e f es fs Ee Ef IH]; constructor; [|assumption]. apply (buffy_event_numbers c' pmt_db sipm_db e k); assumption. }
  clear Ef. rewrite Er. split.
  - induction F as [|e f es fs N F IH]; [constructor|]. cbn [concat]. rewrite map_app. cbn [map] in Hn. inversion Hn as [|? ? Hni Hn']; subst.
    apply NoDup_app_disjoint; [exact (numbered_nodup _ _ _ N)|now apply IH|].
    intros x Hx Hx'. apply in_map_iff in Hx. destruct Hx as (row & <- & Hrow). apply in_map_iff in Hx'. destruct Hx' as (row' & Ex & Hrow').
    destruct (numbered_in _ _ _ _ N Hrow) as [_ B].
    apply in_concat in Hrow'. destruct Hrow' as (f' & Hf' & Hrow').
    apply In_nth_error in Hf'. destruct Hf' as [j Hf'].
    assert (exists e', In e' es /\ numbered c' (sim_evt e') f') as (e' & He' & N').
    { clear - F Hf'. revert j Hf'; induction F as [|e f es fs N F IH]; intros [|j] H; cbn in H; try discriminate.
      - injection H as <-. exists e. split; [now left|assumption].
      - destruct (IH j H) as (e' & ? & ?). exists e'. split; [now right|assumption]. }
    destruct (numbered_in _ _ _ _ N' Hrow') as [_ B']. apply Hni. rewrite in_map_iff. exists e'. split; [|assumption].
    rewrite Ex in B'. nia.
  - intros row Hrow. apply in_concat in Hrow. destruct Hrow as (f & Hf & Hrow).
    clear Hn. induction F as [|e f' es fs N F IH]; [easy|]. destruct Hf as [->|Hf].
    + destruct (numbered_in _ _ _ _ N Hrow) as [-> B]. split; [now left|].
      apply Z.div_unique with (r := (evt_number row - sim_evt e * max_subevt c')%Z); [left; lia|lia].
    + destruct (IH Hf) as [I1 I2]. split; [now right|assumption].
Qed.

(** a run of two events, three and one triggers, [max_time] larger than the buffer *)
Definition ex_cfg : bcfg :=
  {| buffer_len := 4; max_time := 12; pre_trigger := 2; pmt_wid := 1; sipm_wid := 2; trigger_threshold := 1 # 2 |}.
Definition ex_events : list simevent :=
  [ {| sim_evt := 3; sim_time := 100; sim_pmts := [ {| sid := 1; stime := 1 # 2; scharge := 3 |}; {| sid := 0; stime := 11 # 2; scharge := 2 |};
                                                     {| sid := 0; stime := 21 # 2; scharge := 5 |} ];
       sim_sipms := [ {| sid := 10; stime := 23 # 2; scharge := 7 |} ] |};
    {| sim_evt := 7; sim_time := 200; sim_pmts := [ {| sid := 0; stime := 5; scharge := 9 |} ];
       sim_sipms := [ {| sid := 11; stime := 6; scharge := 4 |} ] |} ].
Example C14_ex : match buffy 1 ex_cfg [0; 1] [10; 11] ex_events with
                 | Ok rows => map (fun r => (evt_number r, nexus_evt r)) rows = [(9, 3); (10, 3); (11, 3); (21, 7)]%Z
                 | Err _ => False end.
Proof. vm_compute. reflexivity. Qed.

(** With a buffer length that is not a multiple of the sampling width two events can
    share a number: two triggers are found where one is reserved. *)
Theorem C14_fractional_buffer_refuted : exists c events rows,
  (0 < pmt_wid c)%Q /\ (0 < sipm_wid c)%Q /\ (pmt_wid c < buffer_len c)%Q /\ NoDup (map sim_evt events) /\
  buffy 1 c [0] [10] events = Ok rows /\ ~ NoDup (map evt_number rows).
Proof.
  set (ev := fun n => {| sim_evt := n; sim_time := 0;
       sim_pmts := [ {| sid := 0; stime := 5 # 19; scharge := 9 |}; {| sid := 0; stime := 22 # 19; scharge := 9 |} ];
       sim_sipms := [ {| sid := 10; stime := 5 # 19; scharge := 4 |} ] |}).
  exists {| buffer_len := 1; max_time := 1; pre_trigger := 0; pmt_wid := 10 # 19; sipm_wid := 10 # 19; trigger_threshold := 1 |}, [ev 0; ev 1]%Z.
  eexists. cbn [pmt_wid sipm_wid buffer_len]. do 3 (split; [apply Qltb_lt; vm_compute; reflexivity|]).
  split; [cbn; repeat constructor; cbn; intuition discriminate|]. split; [vm_compute; reflexivity|].
  cbn [map evt_number]. intros H. inversion H as [|? ? _ H']; subst. inversion H' as [|? ? N _]; subst. apply N. now left.
Qed.

(** ** C16 *)
Theorem C16_buffer_is_a_window c r k p0 np pmts s0 ns sipms d trigger :
  good_cfg c r k ->
  is_mat pmts -> cols pmts = np -> rows pmts <> [] ->
  is_mat sipms -> cols sipms = ns -> rows sipms <> [] ->
  (p0 == s0 + qn d * pmt_wid c)%Q -> trigger < np ->
  (p0 + qn trigger * pmt_wid c < s0 + qn ns * sipm_wid c)%Q ->
  exists P S tb i, generate_slice c (grid p0 (pmt_wid c) np) pmts (grid s0 (sipm_wid c) ns) sipms trigger = Ok (P, S) /\
  i < ns /\ (tb == s0 + qn i * sipm_wid c)%Q /\
  (tb <= p0 + qn trigger * pmt_wid c < tb + sipm_wid c)%Q /\
  window_of p0 (pmt_wid c) pmts P (tb - inject_Z (Qfloor (pre_trigger c / pmt_wid c)) * pmt_wid c) (Qfloor (buffer_len c / pmt_wid c)) /\
  window_of s0 (sipm_wid c) sipms S (tb - inject_Z (Qfloor (pre_trigger c / sipm_wid c)) * sipm_wid c) (Qfloor (buffer_len c / sipm_wid c)).
Proof. exact (generate_slice_spec c r k p0 np pmts s0 ns sipms d trigger). Qed.

Theorem C16_event_readout c r k pmt_db sipm_db e :
  good_cfg c r k -> sim_pmts e <> [] -> sim_sipms e <> [] ->
  StronglySorted lt pmt_db -> StronglySorted lt sipm_db ->
  (forall h, In h (sim_pmts e) -> In (sid h) pmt_db) -> (forall h, In h (sim_sipms e) -> In (sid h) sipm_db) ->
  exists rows trs p0 n stopP stopS,
  buffy_event c pmt_db sipm_db e = Ok rows /\
  (stopP == p0 + qn n * pmt_wid c)%Q /\ all_read c e p0 stopP stopS /\
  StronglySorted lt trs /\ (forall i, In i trs <-> fires c e p0 stopP n i) /\
  Forall2 (row_for c pmt_db sipm_db e p0 stopP stopS) trs rows /\
  map evt_number rows = map (fun j => sim_evt e * max_subevt c + Z.of_nat j)%Z (seq 0 (length trs)).
Proof. exact (buffy_event_spec c r k pmt_db sipm_db e). Qed.

(** the two buffers start at the same time when the pre-trigger is a whole number of
    SiPM samples, and always less than one SiPM sample apart *)
Theorem C16_common_start c r k : good_cfg c r k ->
  let pmt_start  := (inject_Z (Qfloor (pre_trigger c / pmt_wid c)) * pmt_wid c)%Q in
  let sipm_start := (inject_Z (Qfloor (pre_trigger c / sipm_wid c)) * sipm_wid c)%Q in
  (sipm_start <= pmt_start < sipm_start + sipm_wid c)%Q /\
  ((exists q : nat, pre_trigger c == qn q * sipm_wid c)%Q -> pmt_start == pre_trigger c /\ sipm_start == pre_trigger c)%Q.
Proof.
  intros G. destruct (good_samples c r k G) as (_ & _ & _ & _ & _ & Hsw). destruct G as [Hp Hr Hs Hk Hl Hpre Hpost _]. cbv zeta.
  destruct (proj1 (fdiv_spec (pre_trigger c) _ _ Hp) eq_refl) as [A1 A2].
  destruct (proj1 (fdiv_spec (pre_trigger c) _ _ Hsw) eq_refl) as [B1 B2].
  unfold fdiv in *. set (f := Qfloor (pre_trigger c / pmt_wid c)) in *. set (g := Qfloor (pre_trigger c / sipm_wid c)) in *.
  split; [split|].
  - assert (Hle : (g * Z.of_nat r <= f)%Z).
    { assert (inject_Z (g * Z.of_nat r) < inject_Z (f + 1))%Q as K; [|apply inj_lt_inv in K; lia].
      rewrite inj_mult. apply Qnot_le_lt. intros C. rewrite Hs in B1. unfold qn in B1.
      assert (inject_Z (f + 1) * pmt_wid c <= inject_Z g * inject_Z (Z.of_nat r) * pmt_wid c)%Q by (apply Qmult_le_compat_r; [assumption|lra]).
      lra. }
    apply inj_le in Hle. rewrite inj_mult in Hle. rewrite Hs. unfold qn. nra.
  - rewrite inj_plus in B2. change (inject_Z 1) with 1%Q in B2. lra.
  - intros [q Eq].
    assert (Ef : f = Z.of_nat (q * r)).
    { apply (fdiv_spec (pre_trigger c) (pmt_wid c) _ Hp). rewrite inj_plus, Nat2Z.inj_mul, inj_mult. fold (qn q) (qn r). change (inject_Z 1) with 1%Q.
      rewrite Eq, Hs. split; nra. }
    assert (Eg : g = Z.of_nat q).
    { apply (fdiv_spec (pre_trigger c) (sipm_wid c) _ Hsw). rewrite inj_plus. fold (qn q). change (inject_Z 1) with 1%Q.
      rewrite Eq. split; nra. }
    rewrite Ef, Eg, Nat2Z.inj_mul, inj_mult. fold (qn q) (qn r). rewrite Eq, Hs. split; ring.
Qed.

Example C16_ex_cfg : good_cfg ex_cfg 2 4.
Proof. constructor; cbn; try lia; try (apply Qltb_lt; reflexivity); try (apply Qleb_le; reflexivity); reflexivity. Qed.
Example C16_ex : match buffy_event ex_cfg [0; 1] [10; 11] (nth 0 ex_events (hd (Build_simevent 0 0 [] []) [])) with
                 | Ok rows => map (fun r => (map (map Qred) (PeaksModel.rows (eng r)), map (map Qred) (PeaksModel.rows (trk r)))) rows =
                     [([[0; 0; 0; 0]; [0; 0; 3; 0]], [[0; 0]; [0; 0]]);
                      ([[0; 0; 0; 2]; [0; 0; 0; 0]], [[0; 0]; [0; 0]]);
                      ([[0; 0; 5; 0]; [0; 0; 0; 0]], [[0; 7]; [0; 0]])]%Q
                 | Err _ => False end.
Proof. vm_compute. reflexivity. Qed.

(** without that condition the two buffers of an event start at different times *)
Theorem C16_common_start_refuted : exists c r k, good_cfg c r k /\
  ~ (inject_Z (Qfloor (pre_trigger c / pmt_wid c)) * pmt_wid c == inject_Z (Qfloor (pre_trigger c / sipm_wid c)) * sipm_wid c)%Q.
Proof.
  exists {| buffer_len := 4; max_time := 12; pre_trigger := 1; pmt_wid := 1; sipm_wid := 2; trigger_threshold := 1 # 2 |}, 2, 4. split.
  - constructor; cbn; try lia; try (apply Qltb_lt; reflexivity); try (apply Qleb_le; reflexivity); reflexivity.
  - vm_compute. discriminate.
Qed.

(** when the pre-trigger fills the buffer, a trigger in the first SiPM sample gives a
    buffer of the wrong length (a slice bound becomes negative) *)
Theorem C16_full_pretrigger_refuted : exists c pm sm P S,
  (pre_trigger c <= buffer_len c)%Q /\ is_mat pm /\ is_mat sm /\ rows pm <> [] /\ rows sm <> [] /\
  generate_slice c (grid 1 (pmt_wid c) (cols pm)) pm (grid 0 (sipm_wid c) (cols sm)) sm 0 = Ok (P, S) /\
  Z.of_nat (cols P) <> Qfloor (buffer_len c / pmt_wid c).
Proof.
  exists {| buffer_len := 4; max_time := 12; pre_trigger := 4; pmt_wid := 1; sipm_wid := 2; trigger_threshold := 1 # 2 |},
    {| cols := 3; rows := [[1; 2; 3]]%Q |}, {| cols := 2; rows := [[4; 5]]%Q |}.
  eexists _, _. split; [apply Qleb_le; reflexivity|]. split; [repeat constructor|]. split; [repeat constructor|].
  split; [discriminate|]. split; [discriminate|]. split; [vm_compute; reflexivity|]. vm_compute. discriminate.
Qed.

Print Assumptions C14_event_numbers_unique.
Print Assumptions C14_fractional_buffer_refuted.
Print Assumptions C15_triggers.
Print Assumptions C15_groups.
Print Assumptions C16_buffer_is_a_window.
Print Assumptions C16_event_readout.
Print Assumptions C16_common_start.
Print Assumptions C16_common_start_refuted.
Print Assumptions C16_full_pretrigger_refuted.
