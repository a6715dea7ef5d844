(** C32, C35, C53, C61: tables *)
From Verif Require Import Base PeaksProofs TablesModel TablesSpec TablesProofs.
Local Open Scope nat_scope.

(** ---------------- C32 ---------------- *)
Section C32.
  Context {V T : Type}.
  Variables (is_object : T -> bool) (string_col : T) (can_cast : T -> T -> bool) (astype : T -> V -> result V).
  Notation frame := (frame V T).

  (** the frames written to a new table are read back one after the other, each row under the names and types of the table *)
  Theorem C32_frames_concatenated (h : nat -> option frame) f0 fs k index h' :
    h k = None -> (forall f, In f (f0 :: fs) -> frame_ok f) ->
    write_frames is_object string_col can_cast astype h (f0 :: fs) k index = (h', Ok tt) ->
    exists cols rows,
      h' k = Some {| f_cols := cols; f_rows := concat rows |} /\ map fst cols = names f0 /\
      Forall2 (fun f rs => Forall2 (stored_row astype f cols) (f_rows f) rs) (f0 :: fs) rows /\
      (forall k', k' <> k -> h' k' = h k').
  Proof.
    intros Hn Hf H. cbn [write_frames] in H. destruct (df_writer _ _ _ _ h f0 k index) as [h1 r] eqn:E. destruct r as [[]|e]; [|discriminate].
    assert (N : NoDup (names (target is_object string_col h k f0))) by (rewrite (target_none _ _ h k f0 Hn); unfold names; cbn; rewrite tabledef_names; apply (Hf f0); now left).
    apply write_one in E; [|apply Hf; now left|exact N]. rewrite (target_none _ _ h k f0 Hn) in E, N. cbn [f_cols f_rows app] in E. destruct E as (rows1 & E1 & E2 & E3).
    apply (write_more _ _ _ _ h1 fs k index h' _ E1) in H; [|exact N|intros; apply Hf; now right]. cbn [f_cols f_rows] in H. destruct H as (rows & H1 & H2 & H3).
    exists (make_tabledef is_object string_col (f_cols f0)), (rows1 :: rows). split; [exact H1|]. split; [apply tabledef_names|]. split; [constructor; assumption|]. intros k' Hk. now rewrite H3, E3.
  Qed.

  (** one more frame is added after what the table has *)
  Theorem C32_append (h : nat -> option frame) f k index t h' :
    h k = Some t -> NoDup (names t) -> frame_ok f -> df_writer is_object string_col can_cast astype h f k index = (h', Ok tt) ->
    exists rows, h' k = Some {| f_cols := f_cols t; f_rows := f_rows t ++ rows |} /\
      Forall2 (stored_row astype f (f_cols t)) (f_rows f) rows /\ (forall k', k' <> k -> h' k' = h k').
  Proof. intros Ht N Hf H. pose proof (target_some is_object string_col h k f t Ht) as Et. apply write_one in H; [|assumption|now rewrite Et]. now rewrite Et in H. Qed.

  (** a frame with rows that do not fit is refused and nothing changes *)
  Theorem C32_mismatch_refused (h : nat -> option frame) f k index t :
    h k = Some t -> NoDup (names t) -> frame_ok f -> f_rows f <> [] ->
    (~ same_columns f (f_cols t) \/ ~ castable is_object can_cast f (f_cols t)) ->
    exists h', df_writer is_object string_col can_cast astype h f k index = (h', Err TableMismatch) /\ forall k', h' k' = h k'.
  Proof. intros Ht N Hf He H. apply (write_mismatch _ _ _ _ h f k index t); try assumption. tauto. Qed.

  (** a frame that fits is accepted *)
  Theorem C32_matching_accepted (h : nat -> option frame) f k index t :
    h k = Some t -> NoDup (names t) -> frame_ok f -> same_columns f (f_cols t) -> castable is_object can_cast f (f_cols t) ->
    (forall row c ty v, In row (f_rows f) -> In (c, ty) (f_cols t) -> cell (f_cols f) row c v -> exists w, astype ty v = Ok w) ->
    (forall l c, index = Some l -> In c l -> In c (names f)) ->
    exists h', df_writer is_object string_col can_cast astype h f k index = (h', Ok tt).
  Proof. intros Ht N Hf S C A I. pose proof (target_some is_object string_col h k f t Ht) as Et. apply write_accepted; rewrite ?Et; assumption. Qed.

  (** reading only some events gives their rows, in the order of the table *)
  Theorem C32_event_list (event_column : nat) (as_event : V -> Z) (h : nat -> option frame) k t evs :
    h k = Some t -> frame_ok t -> In event_column (names t) ->
    exists rows, load_dst event_column as_event h k (Some evs) = Ok {| f_cols := f_cols t; f_rows := rows |} /\
      exists keep, rows = filter keep (f_rows t) /\ forall row, In row (f_rows t) -> (keep row = true <-> exists v, cell (f_cols t) row event_column v /\ In (as_event v) evs).
  Proof.
    intros Ht Hf Hc. unfold load_dst. rewrite Ht.
    set (keep := fun row => match field (f_cols t) row event_column with Ok v => existsb (Z.eqb (as_event v)) evs | Err _ => false end).
    assert (G : forall l, (forall row, In row l -> In row (f_rows t)) -> exists col, rmap (fun row => field (f_cols t) row event_column) l = Ok col /\
      map snd (filter (fun p => existsb (Z.eqb (as_event (fst p))) evs) (combine col l)) = filter keep l).
    { induction l as [|r l IH]; intros Hl; [exists []; split; reflexivity|]. destruct IH as (col & E1 & E2); [intros; apply Hl; now right|].
      apply In_nth_error in Hc. destruct Hc as (i & Hi). assert (Hlen : i < length r).
      { destruct Hf as [_ Hf]. rewrite (Hf r) by (apply Hl; now left). unfold names in Hi. rewrite <- (map_length fst). apply nth_error_Some. congruence. }
      apply nth_error_Some in Hlen. destruct (nth_error r i) as [v|] eqn:Ev; [|easy].
      assert (Hcell : cell (f_cols t) r event_column v) by (exists i; split; assumption). apply field_cell in Hcell; [|apply Hf].
      exists (v :: col). cbn. rewrite Hcell, E1. split; [reflexivity|]. unfold keep at 1. rewrite Hcell. destruct (existsb _ evs); cbn; now rewrite E2. }
    destruct (G (f_rows t)) as (col & E1 & E2); [auto|]. rewrite E1. cbn [rbind]. eexists. split; [rewrite E2; reflexivity|]. exists keep. split; [reflexivity|].
    intros row Hr. unfold keep. split.
    - destruct (field _ row event_column) as [v|] eqn:E; [|discriminate]. intros H. exists v. split; [apply field_cell; [apply Hf|exact E]|]. apply existsb_exists in H. destruct H as (e & He & Hz). apply Z.eqb_eq in Hz. now subst.
    - intros (v & Hv & Hin). apply field_cell in Hv; [|apply Hf]. rewrite Hv. apply existsb_exists. eexists. split; [exact Hin|apply Z.eqb_refl].
  Qed.
End C32.
Print Assumptions C32_frames_concatenated.
Print Assumptions C32_append.
Print Assumptions C32_mismatch_refused.
Print Assumptions C32_matching_accepted.
Print Assumptions C32_event_list.

(** a file with numbers (type 0) and strings (type 1); frames with the columns 5 and 6 in any order *)
Definition ex_write := df_writer (V := Z) (T := nat) (fun t => t =? 1) 1 Nat.eqb (fun _ v => Ok v).
Definition ex_f (a b : nat) (rows : list (list Z)) : frame Z nat := {| f_cols := [(a, 0); (b, 0)]; f_rows := rows |}.
Example C32_example :
  let '(h, r) := write_frames (fun t => t =? 1) 1 Nat.eqb (fun _ v => Ok v) (fun _ => None) [ex_f 5 6 [[1; 2]; [3; 4]]%Z; ex_f 6 5 [[7; 8]]%Z] 9 (Some [5]) in
  r = Ok tt /\ h 9 = Some (ex_f 5 6 [[1; 2]; [3; 4]; [8; 7]]%Z) /\ h 3 = None /\
  load_dst 5 (fun v => v) h 9 (Some [8; 1]%Z) = Ok (ex_f 5 6 [[1; 2]; [8; 7]]%Z).
Proof. cbv. repeat split. Qed.

(** an empty frame is not compared with the table *)
Theorem C32_empty_frame_refuted : exists (h : nat -> option (frame Z nat)) f k t, h k = Some t /\ ~ same_columns f (f_cols t) /\ snd (ex_write h f k None) = Ok tt.
Proof.
  exists (put (fun _ => None) 0 (ex_f 5 6 [])), (ex_f 5 7 []), 0, (ex_f 5 6 []). split; [reflexivity|]. split; [|reflexivity]. intros H. destruct (proj1 (H 7)) as [E|[E|[]]]; [right; now left|discriminate|discriminate].
Qed.
Print Assumptions C32_empty_frame_refuted.
(** a call that fails because a column to index does not exist has added the rows *)
Theorem C32_bad_index_refuted : exists (h : nat -> option (frame Z nat)) f k t, h k = Some t /\ f_rows t = [] /\ same_columns f (f_cols t) /\
  snd (ex_write h f k (Some [8])) = Err KeyError /\ option_map (@f_rows Z nat) (fst (ex_write h f k (Some [8])) k) = Some (f_rows f) /\ f_rows f <> [].
Proof. exists (put (fun _ => None) 0 (ex_f 5 6 [])), (ex_f 5 6 [[1; 2]]%Z), 0, (ex_f 5 6 []). repeat split; try (intros H; exact H). discriminate. Qed.
Print Assumptions C32_bad_index_refuted.

(** ---------------- C35 ---------------- *)
Definition nonzero_types (l : list event_row) : list Z := flat_map (fun e => match e_type e with Some z => if (z =? 0)%Z then [] else [z] | None => [] end) l.
Definition given_channels (l : list event_row) : list (list Z) := flat_map (fun e => match e_channels e with Some c => [c] | None => [] end) l.
Lemma write_events_from n s l s' : write_events n s l = Ok s' ->
  run_info (fst s') = run_info (fst s) ++ map e_run l /\ event_info (fst s') = event_info (fst s) ++ map (fun e => (e_number e, e_time e)) l /\
  trg_types (snd s') = trg_types (snd s) ++ nonzero_types l /\ trg_channels (snd s') = trg_channels (snd s) ++ given_channels l.
Proof.
  revert s. induction l as [|e l IH]; intros s H; cbn in H; [injection H as <-; cbn; now rewrite !app_nil_r|].
  unfold write_event, store_trigger in H. destruct (e_channels e) as [c|] eqn:Ec; [destruct (length c =? n); [|discriminate]|]; cbn [rbind] in H; apply IH in H; destruct H as (H1 & H2 & H3 & H4);
  cbn in H1, H2, H3, H4; rewrite H1, H2, H3, H4; cbn [map nonzero_types given_channels flat_map]; rewrite Ec, <- !app_assoc; cbn [app];
  (split; [reflexivity|]; split; [reflexivity|]; split; [|rewrite <- ?app_assoc; reflexivity]); destruct (e_type e) as [z|]; cbn; [destruct (z =? 0)%Z; cbn; rewrite <- ?app_assoc; reflexivity|reflexivity|destruct (z =? 0)%Z; cbn; rewrite <- ?app_assoc; reflexivity|reflexivity].
Qed.
Lemma write_events_ok n s l : (forall e c, In e l -> e_channels e = Some c -> length c = n) -> exists s', write_events n s l = Ok s'.
Proof.
  revert s. induction l as [|e l IH]; intros s H; [eexists; reflexivity|]. cbn. unfold write_event, store_trigger. destruct (e_channels e) as [c|] eqn:Ec.
  - rewrite (H e c (or_introl eq_refl) Ec), Nat.eqb_refl. cbn [rbind]. apply IH. intros; eapply H; [right|]; eassumption.
  - cbn [rbind]. apply IH. intros; eapply H; [right|]; eassumption.
Qed.

(** an event with a trigger type other than 0 and with channels has its row, at the same place, in all the tables *)
Theorem C35_rows_aligned n l :
  (forall e, In e l -> exists z c, e_type e = Some z /\ z <> 0%Z /\ e_channels e = Some c /\ length c = n) ->
  exists s, write_events n no_events l = Ok s /\
    run_info (fst s) = map e_run l /\ event_info (fst s) = map (fun e => (e_number e, e_time e)) l /\
    map Some (trg_types (snd s)) = map e_type l /\ map Some (trg_channels (snd s)) = map e_channels l.
Proof.
  intros H. destruct (write_events_ok n no_events l) as (s & Hs).
  - intros e c Hin Hc. destruct (H e Hin) as (z & c' & _ & _ & E & L). congruence.
  - exists s. split; [exact Hs|]. apply write_events_from in Hs. cbn in Hs. destruct Hs as (-> & -> & -> & ->). split; [reflexivity|]. split; [reflexivity|].
    clear s. induction l as [|e l IH]; [split; reflexivity|]. destruct (H e (or_introl eq_refl)) as (z & c & E1 & E2 & E3 & _). destruct IH as [I1 I2]; [intros; apply H; now right|].
    unfold nonzero_types, given_channels in *. cbn. rewrite E1, E3. apply Z.eqb_neq in E2. rewrite E2. cbn. now rewrite I1, I2.
Qed.
Print Assumptions C35_rows_aligned.

(** in general: the types other than 0 and the channels that are given *)
Theorem C35_what_is_stored n l s : write_events n no_events l = Ok s ->
  event_info (fst s) = map (fun e => (e_number e, e_time e)) l /\ trg_types (snd s) = nonzero_types l /\ trg_channels (snd s) = given_channels l.
Proof. intros H. apply write_events_from in H. cbn in H. tauto. Qed.
Print Assumptions C35_what_is_stored.

Definition ex_event (n : Z) (t : Z) : event_row := {| e_run := 8; e_number := n; e_time := n * 10; e_type := Some t; e_channels := Some [n; 0] |}%Z.
Example C35_example : exists s, write_events 2 no_events [ex_event 4 1; ex_event 6 2] = Ok s /\ trg_types (snd s) = [1; 2]%Z /\ event_info (fst s) = [(4, 40); (6, 60)]%Z.
Proof. eexists. split; [reflexivity|]. split; reflexivity. Qed.
(** after an event with trigger type 0 the types are those of other events *)
Theorem C35_type_zero_refuted : exists l s, write_events 2 no_events l = Ok s /\ (forall e, In e l -> e_type e <> None) /\
  nth_error (event_info (fst s)) 0 = Some (4, 40)%Z /\ option_map e_type (nth_error l 0) = Some (Some 0%Z) /\ nth_error (trg_types (snd s)) 0 = Some 2%Z.
Proof. exists [ex_event 4 0; ex_event 6 2]. eexists. split; [reflexivity|]. split; [intros e [<-|[<-|[]]]; discriminate|]. repeat split. Qed.
Print Assumptions C35_type_zero_refuted.

(** ---------------- C61 ---------------- *)
Lemma repeatedb_spec l : repeatedb l = false <-> NoDup l.
Proof.
  induction l as [|a l IH]; cbn; [split; [constructor|reflexivity]|]. rewrite orb_false_iff, IH. split.
  - intros [H1 H2]. constructor; [|assumption]. intros H. assert (existsb (Z.eqb a) l = true); [|congruence]. apply existsb_exists. exists a. split; [assumption|apply Z.eqb_refl].
  - intros H. inversion H as [|? ? H1 H2]; subst. split; [|assumption]. destruct (existsb _ _) eqn:E; [|reflexivity]. apply existsb_exists in E. destruct E as (b & Hb & E). apply Z.eqb_eq in E. subst. easy.
Qed.
Lemma dedup_from_spec seen l : NoDup (dedup_from seen l) /\ forall x, In x (dedup_from seen l) <-> In x l /\ ~ In x seen.
Proof.
  revert seen. induction l as [|a l IH]; intros seen; cbn; [split; [constructor|tauto]|]. destruct (existsb (Z.eqb a) seen) eqn:E.
  - destruct (IH seen) as [I1 I2]. split; [assumption|]. intros x. rewrite I2. apply existsb_exists in E. destruct E as (b & Hb & E). apply Z.eqb_eq in E. subst b. split; [tauto|intros [[->|H] K]; easy].
  - destruct (IH (a :: seen)) as [I1 I2]. split.
    + constructor; [|assumption]. intros H. apply I2 in H. destruct H as [_ H]. apply H. now left.
    + intros x. cbn. rewrite I2. cbn. split.
      * intros [<-|[H1 H2]]; [|tauto]. split; [now left|]. intros H. assert (existsb (Z.eqb a) seen = true); [|congruence]. apply existsb_exists. exists a. split; [assumption|apply Z.eqb_refl].
      * intros [[->|H1] H2]; [now left|]. destruct (Z.eq_dec a x); [now left|right; split; [assumption|intros [|]; easy]].
Qed.

(** the table of the filter [k] *)
Definition flags_of (k : nat) (ops : list (nat * Z * bool)) : list (Z * bool) :=
  flat_map (fun '(k', ev, b) => if k' =? k then [(ev, b)] else []) ops.
Lemma write_flags_spec ks ops : write_flags ks ops = map (fun k => (k, flags_of k ops)) ks.
Proof.
  unfold write_flags. assert (E : fold_left make_filter ks [] = map (fun k => (k, @nil (Z * bool))) ks).
  { change (map (fun k => (k, [])) ks) with ([] ++ map (fun k => (k, @nil (Z * bool))) ks). generalize (@nil (nat * list (Z * bool))). induction ks as [|k ks IH]; intros l; cbn; [now rewrite app_nil_r|]. rewrite IH. unfold make_filter. now rewrite <- app_assoc. }
  rewrite E. clear E. induction ops as [|[[k ev] b] ops IH] using rev_ind; [cbn; reflexivity|]. rewrite fold_left_app. cbn. rewrite IH. unfold write_event_passed. rewrite map_map. apply map_ext. intros k'.
  unfold flags_of. rewrite flat_map_app. cbn. rewrite (Nat.eqb_sym k k'). destruct (Nat.eqb_spec k' k); [|now rewrite !app_nil_r]. now rewrite app_nil_r.
Qed.
Lemma in_flags_of k ev b ops : In (ev, b) (flags_of k ops) <-> In (k, ev, b) ops.
Proof.
  unfold flags_of. rewrite in_flat_map. split.
  - intros ([[k' ev'] b'] & H & K). destruct (Nat.eqb_spec k' k) as [->|]; [|easy]. destruct K as [K|[]]. now injection K as -> ->.
  - intros H. exists (k, ev, b). split; [assumption|]. rewrite Nat.eqb_refl. now left.
Qed.
Lemma flags_of_nodup k ops : NoDup (map fst ops) -> NoDup (map fst (flags_of k ops)).
Proof.
  induction ops as [|[[k' ev] b] ops IH]; cbn; [constructor|]. intros H. inversion H as [|? ? H1 H2]; subst. destruct (Nat.eqb_spec k' k) as [->|]; [|now apply IH]. cbn. constructor; [|now apply IH].
  intros K. apply in_map_iff in K. destruct K as ([ev' b'] & K1 & K2). cbn in K1. subst ev'. apply in_flags_of in K2. apply H1. change (k, ev) with (fst (k, ev, b')). now apply in_map.
Qed.
Lemma find_flag_spec ev l b : NoDup (map fst l) -> (find_flag ev l = Some b <-> In (ev, b) l).
Proof.
  unfold find_flag. induction l as [|[e c] l IH]; cbn; [easy|]. intros N. inversion N as [|? ? N1 N2]; subst. destruct (Z.eqb_spec e ev) as [->|E]; cbn.
  - split; [intros K; injection K as ->; now left|intros [K|K]; [now injection K as ->|]]. exfalso. apply N1. change ev with (fst (ev, b)). now apply in_map.
  - rewrite (IH N2). split; [now right|intros [K|K]; [injection K as -> ->; easy|assumption]].
Qed.

Lemma reader_nonempty (fl : flags) : fl <> [] -> event_filter_reader fl =
  if existsb (fun '(_, l) => repeatedb (map fst l)) fl then Err NotModelled
  else Ok (map fst fl, map (fun ev => (ev, map (fun '(_, l) => match find_flag ev l with Some b => b | None => false end) fl)) (dedup_from [] (flat_map (fun '(_, l) => map fst l) fl))).
Proof. now destruct fl. Qed.

(** the table of the filters has a row for every event that reached one of them, and says yes exactly where the event passed *)
Theorem C61_flags_read_back ks ops :
  ks <> [] -> NoDup (map fst ops) -> (forall k ev b, In (k, ev, b) ops -> In k ks) ->
  exists rows, event_filter_reader (write_flags ks ops) = Ok (ks, rows) /\ NoDup (map fst rows) /\
    (forall ev, In ev (map fst rows) <-> exists k b, In (k, ev, b) ops) /\
    (forall ev bs, In (ev, bs) rows -> length bs = length ks /\ forall i k, nth_error ks i = Some k -> (nth_error bs i = Some true <-> In (k, ev, true) ops)).
Proof.
  intros Hk N Hin. rewrite write_flags_spec. rename ks into l. rewrite reader_nonempty by (destruct l; easy).
  destruct (existsb _ _) eqn:E.
  - exfalso. apply existsb_exists in E. destruct E as ([k t] & H & E). apply in_map_iff in H. destruct H as (k' & H & _). injection H as <- <-.
    pose proof (proj2 (repeatedb_spec _) (flags_of_nodup k' ops N)) as K. congruence.
  - set (evs := dedup_from _ _). eexists. split; [replace (map fst (map (fun k => (k, flags_of k ops)) l)) with l by (rewrite map_map; cbn; now rewrite map_id); reflexivity|]. rewrite !map_map. cbn [fst]. rewrite map_id.
    pose proof (dedup_from_spec [] (flat_map (fun '(_, l) => map fst l) (map (fun k => (k, flags_of k ops)) l))) as [D1 D2]. fold evs in D1, D2.
    split; [assumption|]. split.
    + intros ev. rewrite D2, in_flat_map. split.
      * intros [([k t] & H1 & H2) _]. apply in_map_iff in H1. destruct H1 as (k' & H1 & _). injection H1 as <- <-. apply in_map_iff in H2. destruct H2 as ([e b] & <- & H2). apply in_flags_of in H2. eauto.
      * intros (k & b & H). split; [|easy]. exists (k, flags_of k ops). split; [apply in_map_iff; exists k; split; [reflexivity|now apply (Hin k ev b)]|]. change ev with (fst (ev, b)). now apply in_map, in_flags_of.
    + intros ev bs H. apply in_map_iff in H. destruct H as (ev' & H & _). injection H as <- <-. split; [now rewrite !map_length|]. intros i k Hi. rewrite map_map. rewrite (map_nth_error _ _ _ Hi).
      cbn beta iota. rewrite <- in_flags_of. rewrite <- (find_flag_spec _ _ _ (flags_of_nodup k ops N)). destruct (find_flag ev' (flags_of k ops)) as [[]|]; split; congruence.
Qed.
Print Assumptions C61_flags_read_back.
Example C61_example : event_filter_reader (write_flags [1; 2] [(1, 10%Z, true); (2, 10%Z, false); (1, 11%Z, false); (1, 12%Z, true); (2, 12%Z, true)]) =
  Ok ([1; 2], [(10%Z, [true; false]); (11%Z, [false; false]); (12%Z, [true; true])]).
Proof. reflexivity. Qed.
