(** C88: the hits of simulated events *)
From Verif Require Import Base McModel McSpec McProps ReadModel ReadMc MhitModel MhitSpec.
From Coq Require Import Sorted Permutation.
Local Open Scope nat_scope.

Lemma skipn_nth {A} (l : list A) k x : nth_error l k = Some x -> skipn k l = x :: skipn (S k) l.
Proof. revert k; induction l as [|a l IH]; intros [|k] E; try discriminate; [injection E as ->; reflexivity|]. cbn [skipn]. rewrite (IH k E). reflexivity. Qed.
Lemma rows_up_to_ok {A} (l : list A) s n : s + n <= length l -> rows_up_to l (Z.of_nat s) (Z.of_nat (s + n) - 1) = Ok (firstn n (skipn s l)).
Proof.
  intros H. unfold rows_up_to. replace (Z.to_nat (Z.of_nat (s + n) - 1 + 1 - Z.of_nat s)) with n by lia.
  assert (K : forall k, s + k + n <= length l -> rmap (fun j => item l (Z.of_nat s + Z.of_nat j)) (seq k n) = Ok (firstn n (skipn (s + k) l))); [|replace (skipn s l) with (skipn (s + 0) l) by (now rewrite Nat.add_0_r); apply K; lia].
  clear H. induction n as [|n IH]; intros k H; [reflexivity|]. cbn [seq rmap].
  unfold item at 1. replace (Z.of_nat s + Z.of_nat k <? 0)%Z with false by (symmetry; apply Z.ltb_ge; lia).
  replace (Z.to_nat (Z.of_nat s + Z.of_nat k)) with (s + k) by lia.
  destruct (nth_error l (s + k)) as [a|] eqn:E; [|apply nth_error_None in E; lia].
  cbn [rbind]. rewrite (IH (S k)) by lia. cbn [rbind].
  rewrite (skipn_nth _ _ _ E), Nat.add_succ_r. reflexivity.
Qed.

Lemma nth_split {A} (parts : list (list A)) k p : nth_error parts k = Some p -> concat parts = concat (firstn k parts) ++ p ++ concat (skipn (S k) parts) /\ concat (firstn (S k) parts) = concat (firstn k parts) ++ p.
Proof.
  revert k; induction parts as [|q parts IH]; intros [|k] E; try discriminate.
  - injection E as ->. cbn. now rewrite app_nil_r.
  - cbn in E. destruct (IH k E) as [H1 H2]. split.
    + cbn [concat firstn]. cbn [skipn]. rewrite H1, <- app_assoc. reflexivity.
    + change (firstn (S (S k)) (q :: parts)) with (q :: firstn (S k) parts). change (firstn (S k) (q :: parts)) with (q :: firstn k parts).
      cbn [concat]. rewrite H2, app_assoc. reflexivity.
Qed.
Lemma nth_part {A} (parts : list (list A)) k p : nth_error parts k = Some p ->
  firstn (length p) (skipn (length (concat (firstn k parts))) (concat parts)) = p.
Proof.
  intros E. destruct (nth_split parts k p E) as [-> _]. rewrite skipn_app, skipn_all, Nat.sub_diag. cbn. rewrite firstn_app, firstn_all, Nat.sub_diag. cbn. apply app_nil_r.
Qed.

Section Read.
  Context {H P G : Type}.
  Variable m : mcinfo H P G.

  Lemma start_of_part {A} (f : oextent -> Z) (rows : list A) parts k : divided rows (map f (i_extents m)) parts -> k < length parts ->
    match (match k with O => None | S j => nth_error (i_extents m) j end) with Some p => (f p + 1)%Z | None => 0%Z end = Z.of_nat (length (concat (firstn k parts))).
  Proof.
    intros D L. destruct k as [|j]; [reflexivity|]. pose proof (dv_count _ _ _ D) as C. rewrite map_length in C.
    destruct (nth_error (i_extents m) j) as [x|] eqn:E; [|apply nth_error_None in E; lia].
    rewrite (dv_end _ _ _ D j (f x)); [reflexivity|]. rewrite nth_error_map, E. reflexivity.
  Qed.
  Lemma read_part {A} (f : oextent -> Z) (rows : list A) parts k p row : divided rows (map f (i_extents m)) parts -> nth_error parts k = Some p -> nth_error (i_extents m) k = Some row ->
    rows_up_to rows (match (match k with O => None | S j => nth_error (i_extents m) j end) with Some p => (f p + 1)%Z | None => 0%Z end) (f row) = Ok p.
  Proof.
    intros D E R. rewrite (start_of_part f rows parts) by (trivial; apply nth_error_Some; congruence).
    assert (L : (f row + 1)%Z = Z.of_nat (length (concat (firstn (S k) parts)))). { symmetry. apply (dv_end _ _ _ D). rewrite nth_error_map, R. reflexivity. }
    destruct (nth_split parts k p E) as [S1 S2]. rewrite S2, app_length in L.
    replace (f row) with (Z.of_nat (length (concat (firstn k parts)) + length p) - 1)%Z by lia.
    rewrite rows_up_to_ok. { rewrite <- (dv_rows _ _ _ D). now rewrite nth_part. }
    rewrite <- (dv_rows _ _ _ D), S1, !app_length. lia.
  Qed.
  Lemma read_hits parts k p row : divided (i_hits m) (map o_hit (i_extents m)) parts -> nth_error parts k = Some p -> nth_error (i_extents m) k = Some row ->
    match i_hits m with [] => Ok [] | _ => rows_up_to (i_hits m) (match (match k with O => None | S j => nth_error (i_extents m) j end) with Some p => (o_hit p + 1)%Z | None => 0%Z end) (o_hit row) end = Ok p.
  Proof.
    intros D E R. rewrite (read_part o_hit _ parts k p row) by trivial.
    pose proof (dv_rows _ _ _ D) as C. destruct (i_hits m) as [|h hs]; [|reflexivity].
    destruct (nth_split parts k p E) as [S1 _]. rewrite C in S1. symmetry in S1. apply app_eq_nil in S1. destruct S1 as [_ S1]. apply app_eq_nil in S1. destruct S1 as [-> _]. reflexivity.
  Qed.
  Lemma read_row_only parts k p row : divided (i_hits m) (map o_hit (i_extents m)) parts -> nth_error parts k = Some p -> nth_error (i_extents m) k = Some row ->
    read_row m k row true = Ok (p, [], []).
  Proof. intros D E R. unfold read_row. cbv zeta. rewrite (read_hits parts k p row) by trivial. reflexivity. Qed.

  Lemma read_here event k row b : nth_error (i_extents m) k = Some row -> o_event row = event -> read_mcinfo_evt m event k b = read_row m k row b.
  Proof. intros E <-. unfold read_mcinfo_evt. rewrite (skipn_nth _ _ _ E). cbn [search]. now rewrite Z.eqb_refl. Qed.

  Lemma put_new {V} (d : list (Z * V)) k v : ~ In k (map fst d) -> put d k v = d ++ [(k, v)].
  Proof. induction d as [|[k' v'] d IH]; intros N; [reflexivity|]. cbn in *. destruct (Z.eqb_spec k k') as [->|Nk]; [tauto|]. rewrite IH by tauto. reflexivity. Qed.

  Lemma fst_combine {A B} (l : list A) (l' : list B) : length l = length l' -> map fst (combine l l') = l.
  Proof. revert l'; induction l as [|a l IH]; intros [|b l'] E; try discriminate; [reflexivity|]. cbn. f_equal. apply IH. cbn in E. lia. Qed.
  Lemma nth_combine {A B} (l : list A) (l' : list B) k a b : nth_error l k = Some a -> nth_error l' k = Some b -> nth_error (combine l l') k = Some (a, b).
  Proof. revert l' k; induction l as [|x l IH]; intros [|y l'] [|k] E F; try discriminate; cbn in *; [congruence|now apply IH]. Qed.

  Lemma read_rows_spec parts : divided (i_hits m) (map o_hit (i_extents m)) parts -> NoDup (map o_event (i_extents m)) ->
    forall n i d, (forall k e, i <= k -> nth_error (map o_event (i_extents m)) k = Some e -> ~ In e (map fst d)) ->
    read_rows m i n d = Ok (d ++ firstn n (skipn i (combine (map o_event (i_extents m)) parts))).
  Proof.
    intros D ND. pose proof (dv_count _ _ _ D) as C. rewrite map_length in C.
    assert (LC : length (combine (map o_event (i_extents m)) parts) = length (i_extents m)). { rewrite combine_length, map_length. lia. }
    induction n as [|n IH]; intros i d N; [cbn [read_rows firstn]; now rewrite app_nil_r|]. cbn [read_rows].
    destruct (nth_error (i_extents m) i) as [row|] eqn:R.
    - destruct (nth_error parts i) as [p|] eqn:E; [|apply nth_error_None in E; assert (i < length (i_extents m)) by (apply nth_error_Some; congruence); lia].
      rewrite (read_here _ i row) by trivial. rewrite (read_row_only parts i p row) by trivial. cbn [rbind].
      assert (Ev : nth_error (map o_event (i_extents m)) i = Some (o_event row)) by (rewrite nth_error_map, R; reflexivity).
      rewrite put_new by (apply (N i); trivial). rewrite IH.
      + rewrite (skipn_nth _ _ _ (nth_combine _ _ _ _ _ Ev E)). cbn [firstn]. rewrite <- app_assoc. reflexivity.
      + intros k e Hk Hn. rewrite map_app, in_app_iff. intros [I|[I|[]]]; [apply (N k e); trivial; lia|]. cbn in I. subst e.
        assert (i = k); [|lia]. apply (proj1 (NoDup_nth_error _) ND); [rewrite map_length; apply nth_error_Some; congruence|congruence].
    - apply nth_error_None in R. rewrite skipn_all2 by lia. rewrite firstn_nil. now rewrite app_nil_r.
  Qed.

  (** C88: the hits of the events [first], ... [last] - 1 of the file *)
  Theorem C88_by_event parts first last : i_parts m <> [] -> divided (i_hits m) (map o_hit (i_extents m)) parts -> NoDup (map o_event (i_extents m)) ->
    read_mchit_info m first last = Ok (firstn (last - first) (skipn first (combine (map o_event (i_extents m)) parts))).
  Proof.
    intros Np D ND. unfold read_mchit_info, get_mc_info. destruct (i_parts m); [easy|]. cbn [rbind].
    now rewrite (read_rows_spec parts D ND) by (intros; cbn; tauto).
  Qed.
  Theorem C88_no_particles first last : i_parts m = [] -> read_mchit_info m first last = Err NoParticleInfoInFile.
  Proof. intros E. unfold read_mchit_info, get_mc_info. now rewrite E. Qed.

  Lemma search_from event b : forall rows i, (exists k row, nth_error rows k = Some row /\ o_event row = event /\ (forall k' row', k' < k -> nth_error rows k' = Some row' -> o_event row' <> event) /\ search m rows i event b = read_row m (i + k) row b)
    \/ (forall row, In row rows -> o_event row <> event) /\ search m rows i event b = Err IndexError.
  Proof.
    induction rows as [|row rows IH]; intros i; [right; split; [cbn; tauto|reflexivity]|]. cbn [search]. destruct (Z.eqb_spec (o_event row) event) as [E|Ne].
    - left. exists 0, row. repeat split; trivial. { intros k' row' L. lia. } now rewrite Nat.add_0_r.
    - destruct (IH (S i)) as [(k & r & R & E & F & ->)|[F ->]].
      + left. exists (S k), r. repeat split; trivial. { intros [|k'] row' L Hn; [cbn in Hn; congruence|]. cbn in Hn. apply (F k'); trivial. lia. } now rewrite Nat.add_succ_r.
      + right. split; [|reflexivity]. intros r [<-|I]; [trivial|]. now apply F.
  Qed.

  (** an event: its hits, its particles, and its row of the table of generators *)
  Theorem C88_event hits parts event k row p q : divided (i_hits m) (map o_hit (i_extents m)) hits -> divided (i_parts m) (map o_part (i_extents m)) parts ->
    (i_gens m = [] \/ length (i_gens m) = length (i_extents m)) ->
    nth_error (i_extents m) k = Some row -> o_event row = event -> nth_error hits k = Some p -> nth_error parts k = Some q ->
    forall from, from <= k -> (forall k' row', from <= k' < k -> nth_error (i_extents m) k' = Some row' -> o_event row' <> event) ->
    read_mcinfo_evt m event from true = Ok (p, [], []) /\
    read_mcinfo_evt m event from false = Ok (p, q, match nth_error (i_gens m) k with Some g => [g] | None => [] end).
  Proof.
    intros Dh Dp Lg R Ev Eh Ep from Lf First.
    assert (S1 : forall b, read_mcinfo_evt m event from b = read_row m k row b).
    { intros b. unfold read_mcinfo_evt. destruct (search_from event b (skipn from (i_extents m)) from) as [(k0 & r0 & R0 & E0 & F0 & ->)|[F _]].
      - assert (R0' : nth_error (i_extents m) (from + k0) = Some r0). { clear -R0. revert from R0. induction (i_extents m) as [|x l IH]; intros [|f] R0; cbn in *; try (destruct k0; discriminate); trivial. now apply IH. }
        assert (N : from + k0 = k). { destruct (Nat.lt_trichotomy (from + k0) k) as [L|[L|L]]; [|trivial|].
          - exfalso. apply (First (from + k0) r0); [lia|trivial|trivial].
          - exfalso. apply (F0 (k - from) row); [lia| |trivial]. clear -R Lf. revert from k R Lf. induction (i_extents m) as [|x l IH]; intros [|f] k R Lf; cbn in *; try (destruct k; discriminate); [now rewrite Nat.sub_0_r|destruct k as [|k]; [lia|]]. cbn. apply IH; [trivial|lia]. }
        rewrite N in *. congruence.
      - exfalso. apply (F row); [|trivial]. rewrite <- (firstn_skipn from (i_extents m)) in R. rewrite nth_error_app2 in R by (rewrite firstn_length; lia). now apply nth_error_In in R. }
    rewrite !S1. rewrite (read_row_only hits k p row) by trivial. split; [reflexivity|]. unfold read_row. cbv zeta.
    rewrite (read_hits hits k p row) by trivial. cbn [rbind]. rewrite (read_part o_part (i_parts m) parts k q row) by trivial. cbn [rbind].
    destruct Lg as [->|Lg]; [destruct k; reflexivity|]. destruct (i_gens m) as [|g0 gs] eqn:Eg; [destruct k; reflexivity|]. rewrite <- Eg in *.
    unfold item. replace (Z.of_nat k <? 0)%Z with false by (symmetry; apply Z.ltb_ge; lia). rewrite Nat2Z.id.
    destruct (nth_error (i_gens m) k) eqn:Eg2; [reflexivity|]. apply nth_error_None in Eg2. assert (k < length (i_extents m)) by (apply nth_error_Some; congruence). lia.
  Qed.
  Theorem C88_event_missing event from b : (forall row, In row (skipn from (i_extents m)) -> o_event row <> event) -> read_mcinfo_evt m event from b = Err IndexError.
  Proof.
    intros F. unfold read_mcinfo_evt. destruct (search_from event b (skipn from (i_extents m)) from) as [(k & row & R & E & _)|[_ E]]; [|trivial].
    exfalso. apply (F row); [now apply nth_error_In in R|trivial].
  Qed.
End Read.

(** what is needed for the extents to divide a table *)
Theorem C88_divided {A} (rows : list A) ends : growing (length rows) ends -> exists parts, divided rows ends parts.
Proof.
  assert (K : forall ends (rows : list A) s, StronglySorted Z.le ends -> Forall (fun e => Z.of_nat s - 1 <= e)%Z ends -> match rev ends with [] => length rows = 0 | e :: _ => (e + 1 = Z.of_nat (s + length rows))%Z end ->
    exists parts, length parts = length ends /\ concat parts = rows /\ forall k e, nth_error ends k = Some e -> Z.of_nat (s + length (concat (firstn (S k) parts))) = (e + 1)%Z).
  { clear. induction ends as [|e ends IH]; intros rows s S F L.
    - exists []. cbn in *. destruct rows; [|discriminate]. repeat split. intros [|]; discriminate.
    - inversion_clear S as [|? ? S' Fe]. inversion_clear F as [|? ? Hs F']. set (n := Z.to_nat (e + 1 - Z.of_nat s)).
      assert (Ln : n <= length rows).
      { cbn [rev] in L. destruct (rev ends) as [|e' r] eqn:Er; cbn in L; [unfold n; lia|]. assert (In e' ends) by (apply in_rev; rewrite Er; now left). rewrite Forall_forall in Fe. specialize (Fe e' H). unfold n. lia. }
      destruct (IH (skipn n rows) (s + n)) as (parts & P1 & P2 & P3); trivial.
      { rewrite Forall_forall in *. intros e' I. specialize (Fe e' I). unfold n. lia. }
      { cbn [rev] in L. rewrite skipn_length. destruct (rev ends) as [|e' r] eqn:Er; cbn in L; [unfold n in *; lia|lia]. }
      exists (firstn n rows :: parts). split; [cbn; lia|]. split; [cbn; rewrite P2; apply firstn_skipn|].
      intros [|k] e' E; cbn in E.
      + injection E as <-. cbn. rewrite app_nil_r, firstn_length_le by trivial. unfold n. lia.
      + specialize (P3 k e' E). change (firstn (S (S k)) (firstn n rows :: parts)) with (firstn n rows :: firstn (S k) parts). cbn [concat]. rewrite app_length, firstn_length_le by trivial. rewrite <- P3. lia. }
  intros (S & F & L). destruct (K ends rows 0) as (parts & P1 & P2 & P3); trivial.
  exists parts. split; trivial.
Qed.

Section Cast.
  Context {H : Type}.
  Lemma filter_ext_in' {A} (p q : A -> bool) l : (forall a, In a l -> p a = q a) -> filter p l = filter q l.
  Proof. induction l as [|a l IH]; intros E; [reflexivity|]. cbn. rewrite (E a) by now left. rewrite IH by (intros; apply E; now right). reflexivity. Qed.
  Lemma one_by_id (l : list (hrow H)) h : NoDup (map hr_id l) -> In h l -> filter (fun x => (hr_id x =? hr_id h)%Z) l = [h].
  Proof.
    induction l as [|a l IH]; intros N I; [easy|]. inversion_clear N as [|? ? Na N']. cbn.
    destruct I as [->|I].
    - rewrite Z.eqb_refl. f_equal. assert (K : forall x, In x l -> (hr_id x =? hr_id h)%Z = false) by (intros x Ix; apply Z.eqb_neq; intros Ex; apply Na; rewrite <- Ex; now apply in_map).
      clear -K. induction l as [|x l IH]; [reflexivity|]. cbn. rewrite K by now left. apply IH. intros; apply K; now right.
    - destruct (Z.eqb_spec (hr_id a) (hr_id h)) as [E|_]; [exfalso; apply Na; rewrite E; now apply in_map|]. now apply IH.
  Qed.
  Lemma cast_event_by_id (l : list (hrow H)) : NoDup (map hr_id l) -> exists l', by_id l l' /\ cast_event l = map hr_hit l'.
  Proof.
    intros N. destruct (sorted_events_spec (map hr_id l)) as [S I].
    exists (flat_map (fun i => filter (fun h => (hr_id h =? i)%Z) l) (sorted_events (map hr_id l))). set (ks := sorted_events (map hr_id l)) in *.
    assert (One : forall i, In i ks -> exists h, In h l /\ hr_id h = i /\ filter (fun h => (hr_id h =? i)%Z) l = [h]).
    { intros i Hi. apply I in Hi. apply in_map_iff in Hi. destruct Hi as (h & Eh & Ih). exists h. split; [trivial|split; [trivial|]]. rewrite <- Eh. now apply one_by_id. }
    split; [split|].
    - apply NoDup_Permutation.
      + now apply NoDup_map_inv in N.
      + clear I. induction ks as [|k ks IH]; [constructor|]. cbn. destruct (One k) as (h & Hl & Hk & ->); [now left|]. inversion_clear S as [|? ? S' F]. cbn. constructor; [|apply IH; trivial; intros; apply One; now right].
        intros Hin. apply in_flat_map in Hin. destruct Hin as (i & Hi & Hf). apply filter_In in Hf. destruct Hf as [_ Hf]. apply Z.eqb_eq in Hf. rewrite Forall_forall in F. specialize (F i Hi). lia.
      + intros h. rewrite in_flat_map. split.
        * intros Hh. exists (hr_id h). split; [apply I; now apply in_map|]. apply filter_In. split; [trivial|apply Z.eqb_refl].
        * intros (i & _ & Hf). now apply filter_In in Hf.
    - clear I. induction ks as [|k ks IH]; [constructor|]. cbn. destruct (One k) as (h & Hl & Hk & ->); [now left|]. inversion_clear S as [|? ? S' F]. cbn. constructor; [apply IH; trivial; intros; apply One; now right|].
      rewrite Forall_forall in *. intros x Hx. apply in_flat_map in Hx. destruct Hx as (i & Hi & Hf). apply filter_In in Hf. destruct Hf as [_ Hf]. apply Z.eqb_eq in Hf. specialize (F i Hi). lia.
    - unfold cast_event. fold ks. clear I S. induction ks as [|k ks IH]; [reflexivity|]. cbn. destruct (One k) as (h & Hl & Hk & ->); [now left|]. cbn. f_equal. apply IH. intros; apply One; now right.
  Qed.

  (** C88: the dictionary has the events of the table and, for each, its hits in order of their identifiers *)
  Theorem C88_cast (l : list (hrow H)) :
    StronglySorted Z.lt (map fst (cast_mchits_to_dict l)) /\
    (forall e, In e (map fst (cast_mchits_to_dict l)) <-> exists h, In h l /\ hr_event h = e) /\
    forall e hs, In (e, hs) (cast_mchits_to_dict l) -> NoDup (map hr_id (filter (fun h => (hr_event h =? e)%Z) l)) ->
      exists l', by_id (filter (fun h => (hr_event h =? e)%Z) l) l' /\ hs = map hr_hit l'.
  Proof.
    destruct (sorted_events_spec (map hr_event l)) as [S I].
    assert (K : map fst (cast_mchits_to_dict l) = sorted_events (map hr_event l)) by (unfold cast_mchits_to_dict; rewrite map_map; apply map_id).
    rewrite K. split; [trivial|]. split.
    - intros e. rewrite I, in_map_iff. split; intros (h & A & B); exists h; tauto.
    - intros e hs Hin N. unfold cast_mchits_to_dict in Hin. apply in_map_iff in Hin. destruct Hin as (e' & Hin & _). injection Hin as -> <-. now apply cast_event_by_id.
  Qed.
End Cast.

Lemma sorted_unique {H} (l l' : list (hrow H)) : Permutation l l' -> StronglySorted (fun a b => (hr_id a < hr_id b)%Z) l -> StronglySorted (fun a b => (hr_id a < hr_id b)%Z) l' -> l = l'.
Proof.
  revert l'. induction l as [|a l IH]; intros l' Pm S S'; [apply Permutation_nil in Pm; now subst|].
  destruct l' as [|b l']; [apply Permutation_sym, Permutation_nil in Pm; discriminate|].
  inversion_clear S as [|? ? S1 F1]. inversion_clear S' as [|? ? S2 F2]. rewrite Forall_forall in *.
  assert (a = b). { assert (Ia : In a (b :: l')) by (eapply Permutation_in; [exact Pm|now left]). assert (Ib : In b (a :: l)) by (eapply Permutation_in; [exact (Permutation_sym Pm)|now left]).
    destruct Ia as [|Ia]; [now symmetry|]. destruct Ib as [|Ib]; [trivial|]. specialize (F1 b Ib). specialize (F2 a Ia). lia. }
  subst b. f_equal. apply IH; trivial. now apply Permutation_cons_inv in Pm.
Qed.
Lemma sorted_nodup {H} (l : list (hrow H)) : StronglySorted (fun a b => (hr_id a < hr_id b)%Z) l -> NoDup (map hr_id l).
Proof.
  induction 1 as [|a l S IH F]; [constructor|]. cbn. constructor; [|trivial]. rewrite in_map_iff. intros (x & E & I). rewrite Forall_forall in F. specialize (F x I). lia.
Qed.

Definition tag {H} (eps : list (Z * list H)) : list (H * Z) := flat_map (fun '(e, p) => map (fun h => (h, e)) p) eps.
Lemma blocks {H} (parts : list (list H)) : forall (out : list (H * Z)) evs, map fst out = concat parts -> length evs = length parts ->
  (forall k p e j r x, nth_error parts k = Some p -> nth_error evs k = Some e -> j < length p -> nth_error out (length (concat (firstn k parts)) + j) = Some (r, x) -> x = e) ->
  out = tag (combine evs parts).
Proof.
  induction parts as [|p parts IH]; intros out [|e evs] F L K; try discriminate.
  - destruct out; [reflexivity|discriminate].
  - cbn [combine tag flat_map]. rewrite <- (firstn_skipn (length p) out). f_equal.
    + assert (Fp : map fst (firstn (length p) out) = p). { rewrite <- firstn_map, F. cbn. rewrite firstn_app, firstn_all, Nat.sub_diag. cbn. apply app_nil_r. }
      assert (Kp : forall j r x, j < length p -> nth_error out j = Some (r, x) -> x = e). { intros j r x Hj. apply (K 0 p e j); trivial; reflexivity. }
      clear -Fp Kp. revert p Fp Kp. induction out as [|[r x] out IH]; intros [|h p] Fp Kp; try discriminate; [reflexivity|reflexivity|]. cbn in Fp |- *. injection Fp as -> Fp. f_equal; [f_equal; apply (Kp 0 h x); [cbn; lia|reflexivity]|].
      apply IH; [trivial|]. intros j r x' Hj. apply (Kp (S j)). cbn; lia.
    + apply IH; [rewrite <- skipn_map, F; cbn; now rewrite skipn_app, skipn_all, Nat.sub_diag|cbn in L; lia|].
      intros k q e' j r x Hp He Hj Hn. apply (K (S k) q e' j r x); trivial. cbn [firstn concat]. rewrite app_length.
      rewrite <- Hn. clear. revert out. induction p as [|h p IH]; intros out; cbn; [reflexivity|]. destruct out as [|o out]; [now destruct (length (concat (firstn k parts)) + j), (length p + length (concat (firstn k parts)) + j)|]. cbn. apply IH.
Qed.
Lemma filter_tag {H} (eps : list (Z * list H)) : NoDup (map fst eps) -> forall e p, In (e, p) eps -> filter (fun he => (snd he =? e)%Z) (tag eps) = map (fun h => (h, e)) p.
Proof.
  assert (F : forall (e e' : Z) (p : list H), filter (fun he => (snd he =? e)%Z) (map (fun h => (h, e')) p) = if (e' =? e)%Z then map (fun h => (h, e')) p else []).
  { intros e e' p. induction p as [|h p IH]; [now destruct (e' =? e)%Z|]. cbn. rewrite IH. now destruct (e' =? e)%Z. }
  assert (Z0 : forall eps e, ~ In e (map fst eps) -> filter (fun he => (snd he =? e)%Z) (tag (H:=H) eps) = []).
  { clear -F. induction eps as [|[e' p] eps IH]; intros e N; [reflexivity|]. cbn. rewrite filter_app, F. cbn in N. destruct (Z.eqb_spec e' e); [tauto|]. apply IH. tauto. }
  induction eps as [|[e' p'] eps IH]; intros N e p I; [easy|]. inversion_clear N as [|? ? Na N']. cbn [tag flat_map]. rewrite filter_app, F. destruct I as [E|I].
  - injection E as -> ->. rewrite Z.eqb_refl. change (flat_map _ eps) with (tag eps). rewrite Z0 by exact Na. apply app_nil_r.
  - destruct (Z.eqb_spec e' e) as [->|_]; [exfalso; apply Na; change e with (fst (e, p)); now apply in_map|]. cbn. now apply IH.
Qed.

(** C88: the table of hits, as a dictionary, and the reading event by event give the same hits to every event that has some *)
Theorem C88_agrees {H P G} (m : mcinfo H P G) (hid : H -> Z) parts n : i_parts m <> [] -> divided (i_hits m) (map o_hit (i_extents m)) parts -> NoDup (map o_event (i_extents m)) ->
  in_order (map (fun x => {| McModel.x_event := o_event x; McModel.x_last := o_hit x |}) (i_extents m)) ->
  (forall p, In p parts -> StronglySorted (fun a b => (hid a < hid b)%Z) p) -> length (i_extents m) <= n ->
  exists d table, read_mchit_info m 0 n = Ok d /\ load_mchits_dfold hid m = Ok table /\
    forall e hs, In (e, hs) (cast_mchits_to_dict table) <-> In (e, hs) d /\ hs <> [].
Proof.
  intros Np D ND O Sid Ln. set (exts := map _ _) in O. pose proof (dv_count _ _ _ D) as C. rewrite map_length in C.
  assert (Lc : length (combine (map o_event (i_extents m)) parts) = length (i_extents m)) by (rewrite combine_length, map_length; lia).
  exists (combine (map o_event (i_extents m)) parts).
  destruct (C34_rows_attributed exts (i_hits m) O) as (out & E1 & E2 & E3).
  { destruct (i_hits m) as [|h hs] eqn:Eh; [now left|right]. rewrite <- Eh in *.
    assert (Nx : i_extents m <> []). { intros Ex. rewrite Ex in C. cbn in C. destruct parts; [|discriminate]. pose proof (dv_rows _ _ _ D) as R. cbn in R. congruence. }
    destruct (exists_last Nx) as (xs & x & El).
    exists {| McModel.x_event := o_event x; McModel.x_last := o_hit x |}. split. { unfold exts. rewrite El, map_app. apply in_or_app. right. now left. }
    cbn. pose proof (dv_end _ _ _ D (length xs) (o_hit x)) as K. rewrite firstn_all2 in K by (rewrite C, El, app_length; cbn; lia). rewrite (dv_rows _ _ _ D) in K.
    cut (nth_error (map o_hit (i_extents m)) (length xs) = Some (o_hit x)); [intros Hx; specialize (K Hx); lia|]. rewrite El, map_app, nth_error_app2 by now rewrite map_length. rewrite map_length, Nat.sub_diag. reflexivity. }
  assert (Out : out = tag (combine (map o_event (i_extents m)) parts)).
  { apply blocks; [rewrite E2; symmetry; apply (dv_rows _ _ _ D)|rewrite map_length; lia|].
    intros k p e j r x Hp He Hj Hn. destruct (E3 _ _ _ Hn) as (k0 & x0 & N0 & <- & R0 & F0).
    rewrite nth_error_map in He. destruct (nth_error (i_extents m) k) as [row|] eqn:R; [|discriminate]. cbn in He. injection He as <-.
    assert (Lr : (o_hit row + 1)%Z = Z.of_nat (length (concat (firstn (S k) parts)))). { symmetry. apply (dv_end _ _ _ D). rewrite nth_error_map, R. reflexivity. }
    destruct (nth_split parts k p Hp) as [_ S2]. rewrite S2, app_length in Lr.
    unfold exts in N0. rewrite nth_error_map in N0. destruct (nth_error (i_extents m) k0) as [row0|] eqn:R1; [|discriminate]. cbn in N0. injection N0 as <-. cbn in R0 |- *.
    destruct (Nat.lt_trichotomy k0 k) as [L|[->|L]]; [| congruence|].
    - exfalso. assert (L0 : (o_hit row0 + 1)%Z = Z.of_nat (length (concat (firstn (S k0) parts)))). { symmetry. apply (dv_end _ _ _ D). rewrite nth_error_map, R1. reflexivity. }
      assert (length (concat (firstn (S k0) parts)) <= length (concat (firstn k parts))); [|lia].
      rewrite <- (firstn_skipn (S k0) (firstn k parts)), firstn_firstn, Nat.min_l by lia. rewrite concat_app, app_length. lia.
    - exfalso. specialize (F0 k {| McModel.x_event := o_event row; McModel.x_last := o_hit row |} L). unfold exts in F0. rewrite nth_error_map, R in F0. specialize (F0 eq_refl). cbn in F0. lia. }
  eexists. split; [|split].
  - rewrite (C88_by_event m parts 0 n) by trivial. cbn [skipn]. rewrite Nat.sub_0_r. rewrite firstn_all2 by lia. reflexivity.
  - unfold load_mchits_dfold. fold exts. rewrite E1. cbn [rbind]. reflexivity.
  - set (t := map _ out). set (eps := combine (map o_event (i_extents m)) parts) in *.
    assert (NE : NoDup (map fst eps)) by (unfold eps; rewrite fst_combine by (rewrite map_length; lia); trivial).
    assert (Ft : forall e p, In (e, p) eps -> filter (fun h => (hr_event h =? e)%Z) t = map (fun h => {| hr_event := e; hr_id := hid h; hr_hit := h |}) p).
    { intros e p I. unfold t. rewrite Out. rewrite <- (map_map (fun h => (h, e)) (fun '(h, e) => {| hr_event := e; hr_id := hid h; hr_hit := h |})). rewrite <- (filter_tag eps NE e p I).
      generalize (tag eps) as l. clear. induction l as [|[h e'] l IH]; [reflexivity|]. cbn. rewrite IH. destruct (e' =? e)%Z; reflexivity. }
    assert (Cast : forall e p, In (e, p) eps -> cast_event (filter (fun h => (hr_event h =? e)%Z) t) = p).
    { intros e p I. rewrite (Ft e p I). assert (Sp : StronglySorted (fun a b => (hr_id a < hr_id b)%Z) (map (fun h => {| hr_event := e; hr_id := hid h; hr_hit := h |}) p)).
      { assert (Sp : StronglySorted (fun a b => (hid a < hid b)%Z) p) by (apply Sid; unfold eps in I; now apply in_combine_r in I). clear -Sp. induction Sp as [|a p S IH F]; [constructor|]. cbn. constructor; [trivial|]. rewrite Forall_forall in *. intros x Ix. apply in_map_iff in Ix. destruct Ix as (h & <- & Ih). cbn. now apply F. }
      destruct (cast_event_by_id _ (sorted_nodup _ Sp)) as (l' & (Pm & S') & ->). rewrite <- (sorted_unique _ _ Pm Sp S'). rewrite map_map. apply map_id. }
    assert (Has : forall e, In e (map hr_event t) <-> exists p, In (e, p) eps /\ p <> []).
    { intros e. unfold t. rewrite map_map, in_map_iff, Out. split.
      - intros ([h e'] & Ee & I). cbn in Ee. subst e'. unfold tag in I. apply in_flat_map in I. destruct I as ([e' p] & I & Ih). apply in_map_iff in Ih. destruct Ih as (h' & Ih & Ip). injection Ih as -> ->. exists p. split; [trivial|]. now intros ->.
      - intros ([|h p] & I & Ne); [easy|]. exists (h, e). split; [reflexivity|]. unfold tag. apply in_flat_map. exists (e, h :: p). split; [trivial|now left]. }
    destruct (sorted_events_spec (map hr_event t)) as [_ Ks]. intros e hs. unfold cast_mchits_to_dict. rewrite in_map_iff. split.
    + intros (e' & Ee & Ie). apply Ks, Has in Ie. destruct Ie as (p & Ip & Ne). injection Ee as -> <-. rewrite (Cast e p Ip). tauto.
    + intros [I Ne]. exists e. split; [now rewrite (Cast e hs I)|]. apply Ks, Has. now exists hs.
Qed.

(** hits of two particles with the same identifier: one is lost *)
Theorem C88_shared_ids_refuted : exists l : list (hrow nat),
  map hr_hit (filter (fun h => (hr_event h =? 5)%Z) l) = [10; 11; 12] /\ cast_mchits_to_dict l = [(5%Z, [10; 12])].
Proof.
  exists [ {| hr_event := 5; hr_id := 0; hr_hit := 10 |}; {| hr_event := 5; hr_id := 0; hr_hit := 11 |}; {| hr_event := 5; hr_id := 1; hr_hit := 12 |} ].
  split; reflexivity.
Qed.

Definition ex_info : mcinfo (Z * nat) nat nat := {|
  i_extents := [ {| o_event := 9; o_hit := 1; o_part := 0 |}; {| o_event := 4; o_hit := 4; o_part := 2 |} ];
  i_hits := [(0%Z, 10); (3%Z, 11); (1%Z, 12); (2%Z, 13); (7%Z, 14)]; i_parts := [20; 21; 22]; i_gens := [30; 31] |}.
Example C88_ex : exists parts, i_parts ex_info <> [] /\ divided (i_hits ex_info) (map o_hit (i_extents ex_info)) parts /\ NoDup (map o_event (i_extents ex_info)) /\
  in_order (map (fun x => {| McModel.x_event := o_event x; McModel.x_last := o_hit x |}) (i_extents ex_info)) /\
  (forall p, In p parts -> StronglySorted (fun a b => (fst a < fst b)%Z) p) /\
  read_mchit_info ex_info 0 5 = Ok (combine [9%Z; 4%Z] parts) /\
  read_mcinfo_evt ex_info 4 0 false = Ok ([(1%Z, 12); (2%Z, 13); (7%Z, 14)], [21; 22], [31]).
Proof.
  exists [[(0%Z, 10); (3%Z, 11)]; [(1%Z, 12); (2%Z, 13); (7%Z, 14)]]. split; [easy|]. split; [|split; [|split; [|split; [|split; reflexivity]]]].
  - split; [reflexivity|reflexivity|]. intros [|[|[|k]]] e E; cbn in *; try discriminate; injection E as <-; reflexivity.
  - cbn. repeat constructor; cbn; intuition lia.
  - unfold in_order. repeat constructor; cbn; lia.
  - intros p [<-|[<-|[]]]; repeat constructor; cbn; lia.
Qed.
Print Assumptions C88_by_event.
Print Assumptions C88_no_particles.
Print Assumptions C88_event.
Print Assumptions C88_event_missing.
Print Assumptions C88_divided.
Print Assumptions C88_cast.
Print Assumptions C88_agrees.
Print Assumptions C88_shared_ids_refuted.
