From Coq Require Import Ascii String Lia.
From Verif Require Import Base CloneModel CloneSpec.
Local Open Scope list_scope.

(** ---- statements ---- *)
Lemma starts_app p s : forall r, starts p s = Some r <-> s = p ++ r.
Proof.
  revert s; induction p as [|c p IH]; intros s r; simpl; [split; [now injection 1|now intros ->]|].
  destruct s as [|d s]; [split; discriminate|]. destruct (Ascii.eqb c d) eqn:E.
  - apply Ascii.eqb_eq in E; subst. rewrite IH. split; [now intros ->|now injection 1].
  - split; [discriminate|]. intros H; injection H as -> _. now rewrite Ascii.eqb_refl in E.
Qed.
Lemma comment_quiet s : ~ occurs (chars " COMMENT") s -> strip_comment s = s.
Proof.
  induction s as [|c s IH]; intros N; [reflexivity|]. cbn [strip_comment].
  assert (C : comment_at (c :: s) = None).
  { unfold comment_at. destruct (starts _ _) eqn:E; [|reflexivity]. apply starts_app in E. exfalso. apply N. exists [], l. exact E. }
  rewrite C, IH; [reflexivity|]. intros (a & b & E). apply N. exists (c :: a), b. now rewrite E.
Qed.
Definition pat : line := chars " COMMENT".
Lemma crossing a r : starts pat (a ++ pat ++ r) <> None -> a <> [] -> exists b, a = pat ++ b.
Proof.
  intros H N. destruct (starts pat _) eqn:E; [|congruence]. apply starts_app in E. cbn in E.
  do 8 (destruct a as [|?c a]; [exfalso; first [now apply N | cbn in E; repeat (injection E as ?E E || injection E as ?E); discriminate]|]).
  cbn in E. injection E as -> -> -> -> -> -> -> -> E. now exists a.
Qed.
Lemma after_quote t tail : ~ In quote tail -> after_last_quote (t ++ quote :: tail) = Some tail.
Proof.
  intros N. assert (Z : after_last_quote tail = None).
  { induction tail as [|c tail IH]; [reflexivity|]. cbn. rewrite IH by (intros ?; apply N; now right).
    destruct (Ascii.eqb c quote) eqn:E; [|reflexivity]. apply Ascii.eqb_eq in E. exfalso. apply N. now left. }
  induction t as [|c t IH]; cbn; [now rewrite Z|now rewrite IH].
Qed.
Lemma comment_stripped a t tail : ~ occurs (chars " COMMENT") a -> ~ In quote tail -> strip_comment (a ++ (chars " COMMENT '" ++ t ++ chars "'") ++ tail) = a ++ tail.
Proof.
  intros N Q. induction a as [|c a IH].
  - cbn [app]. rewrite <- !app_assoc.
    assert (C : comment_at (chars " COMMENT '" ++ t ++ chars "'" ++ tail) = Some tail) by (cbn; now rewrite after_quote).
    destruct (chars " COMMENT '" ++ t ++ chars "'" ++ tail) eqn:E; [discriminate E|]. cbn [strip_comment]. now rewrite C.
  - cbn [app]. cbn [strip_comment].
    assert (C : comment_at (c :: a ++ (chars " COMMENT '" ++ t ++ chars "'") ++ tail) = None).
    { unfold comment_at. destruct (starts _ _) eqn:E; [|reflexivity]. exfalso.
      destruct (crossing (c :: a) (chars " '" ++ t ++ chars "'" ++ tail)) as (b & Eb); [|discriminate|].
      - intros F. assert (G : c :: a ++ (chars " COMMENT '" ++ t ++ chars "'") ++ tail = (c :: a) ++ pat ++ chars " '" ++ t ++ chars "'" ++ tail) by (cbn; now rewrite <- app_assoc).
        rewrite G in E. unfold pat, chars in *. rewrite F in E. discriminate E.
      - apply N. exists [], b. exact Eb. }
    rewrite C, IH; [reflexivity|]. intros (x & b & E). apply N. exists (c :: x), b. now rewrite E.
Qed.
Lemma drop_spaces_tail s : exists a, s = a ++ drop_spaces s.
Proof. induction s as [|c s (a & E)]; cbn; [now exists []|]. destruct (is_space c); [exists (c :: a); cbn; congruence|now exists []]. Qed.
Lemma engine_quiet s : ~ occurs (chars "ENGINE") s -> strip_engine s = s.
Proof.
  induction s as [|c s IH]; intros N; [reflexivity|]. cbn [strip_engine].
  destruct (starts _ _) eqn:E.
  - apply starts_app in E. exfalso. apply N. destruct (drop_spaces_tail (c :: s)) as (a & Ea). exists a, l. rewrite E in Ea. exact Ea.
  - rewrite IH; [reflexivity|]. intros (a & b & F). apply N. exists (c :: a), b. now rewrite F.
Qed.
Lemma last_line e : strip_engine (strip_comment (chars ") ENGINE" ++ e)) = chars ")".
Proof. cbn. reflexivity. Qed.

(** keys *)
Lemma before_comma_app s : before_comma (s ++ chars ",") = Some s.
Proof. unfold before_comma, trim. rewrite rev_involutive, rev_app_distr. cbn. now rewrite rev_involutive. Qed.
(** the comma at the end of an item does not matter for the other substitutions *)
Lemma occurs_comma p s : ~ In ","%char p -> p <> [] -> occurs p (s ++ chars ",") -> occurs p s.
Proof.
  intros N P (a & b & E). destruct (@exists_last _ (p ++ b)) as (q & z & Ez); [destruct p; [congruence|discriminate]|].
  rewrite Ez, app_assoc in E. apply app_inj_tail in E as [E Z]. subst z.
  destruct (rev b) as [|y rb] eqn:Eb.
  - exfalso. apply N. assert (b = []) by (rewrite <- (rev_involutive b), Eb; reflexivity). subst b. rewrite app_nil_r in Ez. rewrite Ez. apply in_or_app. right. now left.
  - assert (B : b = rev rb ++ [y]) by (rewrite <- (rev_involutive b), Eb; reflexivity). subst b. rewrite app_assoc in Ez. apply app_inj_tail in Ez as [Ez _].
    exists a, (rev rb). now rewrite E, <- Ez.
Qed.
Lemma cleaned s : quiet s -> strip_engine (strip_comment s) = s.
Proof. intros [A B]. rewrite comment_quiet, engine_quiet by assumption. reflexivity. Qed.
Lemma cleaned_comma s : quiet s -> strip_engine (strip_comment (s ++ chars ",")) = s ++ chars ",".
Proof.
  intros [A B]. rewrite comment_quiet, engine_quiet; [reflexivity| |]; intros H; [apply B|apply A]; apply occurs_comma in H; auto; try discriminate; cbn; intuition discriminate.
Qed.
Lemma cleaned_column c tail : quiet (column_text c) -> tail = [] \/ tail = chars "," ->
  strip_engine (strip_comment ((column_text c ++ comment_text c) ++ tail)) = column_text c ++ tail.
Proof.
  intros Q T. assert (U : strip_comment ((column_text c ++ comment_text c) ++ tail) = column_text c ++ tail).
  { unfold comment_text. destruct (c_comment c) as [t|].
    - rewrite <- app_assoc. apply comment_stripped; [apply Q|]. destruct T as [-> | ->]; cbn; intuition discriminate.
    - rewrite app_nil_r. apply comment_quiet. destruct T as [-> | ->]; [rewrite app_nil_r; apply Q|]. intros H. apply occurs_comma in H; [now apply Q in H|cbn; intuition discriminate|discriminate]. }
  rewrite U. apply engine_quiet. destruct T as [-> | ->]; [rewrite app_nil_r; apply Q|]. intros H. apply occurs_comma in H; [now apply Q in H|cbn; intuition discriminate|discriminate].
Qed.
Definition clean (l : line) : line := strip_engine (strip_comment l).
(** items: what each becomes, with or without comma *)
Lemma separated_clean (f : line -> line) items :
  (forall x, In x items -> clean x = f x /\ clean (x ++ chars ",") = f x ++ chars ",") -> map clean (separated items) = separated (map f items).
Proof.
  induction items as [|x [|y r] IH]; intros H; [reflexivity|cbn; now rewrite (proj1 (H x (or_introl eq_refl)))|].
  change (map clean ((x ++ chars ",") :: separated (y :: r)) = (f x ++ chars ",") :: separated (map f (y :: r))). cbn [map]. rewrite (proj2 (H x (or_introl eq_refl))). f_equal. apply IH. intros z Hz. apply H. now right.
Qed.
Lemma separated_map2 (g h : column -> line) cols extra :
  (forall c, In c cols -> clean (g c) = h c /\ clean (g c ++ chars ",") = h c ++ chars ",") ->
  (forall x, In x extra -> clean x = x /\ clean (x ++ chars ",") = x ++ chars ",") ->
  map clean (separated (map g cols ++ extra)) = separated (map h cols ++ extra).
Proof.
  intros A B. induction cols as [|c cols IH].
  - cbn [map app]. rewrite (separated_clean (fun x => x)), map_id; auto.
  - assert (A' : forall c, In c cols -> clean (g c) = h c /\ clean (g c ++ chars ",") = h c ++ chars ",") by (intros z Hz; apply A; now right).
    specialize (IH A'). destruct (A c (or_introl eq_refl)) as [P Q]. cbn [map app].
    assert (E : (map g cols ++ extra = [] /\ map h cols ++ extra = []) \/ (map g cols ++ extra <> [] /\ map h cols ++ extra <> [])).
    { destruct cols; [destruct extra; [left; split; reflexivity|right; split; discriminate]|right; split; discriminate]. }
    destruct E as [[E F]|[E F]]; [rewrite E, F; cbn; now rewrite P|].
    destruct (map g cols ++ extra) as [|u us] eqn:E1; [congruence|]. destruct (map h cols ++ extra) as [|v vs] eqn:E2; [congruence|].
    change (clean (g c ++ chars ",") :: map clean (separated (u :: us)) = (h c ++ chars ",") :: separated (v :: vs)). now rewrite Q, IH.
Qed.
(** lines that are not keys are left *)
Lemma strip_keys_none lines : (forall k, In k (tl lines) -> is_key k = false) -> strip_keys lines = lines.
Proof.
  induction lines as [|l [|k [|m r]] IH]; intros H; try reflexivity. cbn [strip_keys].
  assert (E : is_key k = false) by (apply H; now left). rewrite E.
  change (match before_comma l with | Some _ | None => l :: strip_keys (k :: m :: r) end = l :: k :: m :: r).
  destruct (before_comma l); rewrite IH; auto; intros z Hz; apply H; now right.
Qed.
Lemma strip_keys_one before l k last : (forall x, In x (tl (before ++ [l])) -> is_key x = false) -> is_key k = true ->
  strip_keys (before ++ [l ++ chars ","; k; last]) = before ++ [l ++ last].
Proof.
  induction before as [|b before IH]; intros H K.
  - cbn [app strip_keys]. now rewrite before_comma_app, K.
  - destruct before as [|b' before].
    + cbn [app]. assert (E : is_key l = false) by (apply H; now left).
      assert (E' : is_key (l ++ chars ",") = false).
      { unfold is_key in *. destruct (starts _ (drop_spaces (l ++ chars ","))) eqn:S1; [|reflexivity]. exfalso.
        apply starts_app in S1. destruct (drop_spaces l) as [|z zs] eqn:D.
        - assert (G : forall l, drop_spaces l = [] -> drop_spaces (l ++ chars ",") = chars ",") by (clear; intros l; induction l as [|a l IHl]; cbn; [reflexivity|destruct (is_space a); [exact IHl|discriminate]]).
          rewrite (G _ D) in S1. discriminate S1.
        - assert (G : forall l z zs, drop_spaces l = z :: zs -> drop_spaces (l ++ chars ",") = z :: zs ++ chars ",") by (clear; intros l z zs; induction l as [|a l IHl]; cbn; [discriminate|destruct (is_space a); [exact IHl|intros Q; now injection Q as -> ->]]).
          rewrite (G _ _ _ D) in S1.
          assert (O : starts (list_ascii_of_string "KEY") (z :: zs) <> None).
          { cbn in S1. destruct zs as [|z1 [|z2 zs]]; cbn in S1; injection S1 as ?; subst; try discriminate. }
          apply O. destruct (starts (list_ascii_of_string "KEY") (z :: zs)); [discriminate E|reflexivity]. }
      change (strip_keys (b :: (l ++ chars ",") :: [k; last]) = [b; l ++ last]).
      assert (F : strip_keys (b :: (l ++ chars ",") :: [k; last]) = b :: strip_keys ((l ++ chars ",") :: [k; last])) by (cbn [strip_keys]; rewrite E'; destruct (before_comma b); reflexivity).
      rewrite F. f_equal. cbn [strip_keys]. now rewrite before_comma_app, K.
    + assert (E : is_key b' = false) by (apply H; now left).
      change (strip_keys (b :: b' :: (before ++ [l ++ chars ","; k; last])) = b :: (b' :: before ++ [l ++ last])).
      assert (F : strip_keys (b :: b' :: (before ++ [l ++ chars ","; k; last])) = b :: strip_keys (b' :: (before ++ [l ++ chars ","; k; last]))).
      { destruct before as [|q qs]; cbn [app strip_keys]; rewrite E; destruct (before_comma b); reflexivity. }
      rewrite F. f_equal. apply IH; [|exact K]. intros x Hx. apply H. cbn in Hx |- *. now right.
Qed.
Lemma text_join lines : join_lines lines = text lines.
Proof. reflexivity. Qed.
Lemma text_last lines z : lines <> [] -> text (lines ++ [z]) = text lines ++ "010"%char :: z.
Proof.
  induction lines as [|l [|m r] IH]; intros N; [congruence|reflexivity|].
  change (l ++ "010"%char :: text ((m :: r) ++ [z]) = (l ++ "010"%char :: text (m :: r)) ++ "010"%char :: z). rewrite IH by discriminate. now rewrite <- app_assoc.
Qed.
Lemma text_glue lines l z : text (lines ++ [l ++ z]) = text (lines ++ [l]) ++ z.
Proof.
  induction lines as [|l0 r IH]; [reflexivity|]. destruct r as [|m r].
  - cbn. now rewrite <- app_assoc.
  - change (l0 ++ "010"%char :: text ((m :: r) ++ [l ++ z]) = (l0 ++ "010"%char :: text ((m :: r) ++ [l])) ++ z). rewrite IH. now rewrite <- app_assoc.
Qed.
Lemma separated_app a k : a <> [] -> exists b l, separated a = b ++ [l] /\ separated (a ++ [k]) = b ++ [l ++ chars ","; k].
Proof.
  induction a as [|x [|y r] IH]; intros N; [congruence|exists [], x; now split|].
  destruct IH as (b & l & A & B); [discriminate|]. exists ((x ++ chars ",") :: b), l. split.
  - change ((x ++ chars ",") :: separated (y :: r) = ((x ++ chars ",") :: b) ++ [l]). now rewrite A.
  - change ((x ++ chars ",") :: separated ((y :: r) ++ [k]) = ((x ++ chars ",") :: b) ++ [l ++ chars ","; k]). now rewrite B.
Qed.
Lemma separated_in items x : In x (separated items) -> exists y, In y items /\ (x = y \/ x = y ++ chars ",").
Proof.
  induction items as [|a [|b r] IH]; [easy|intros [->|[]]; exists x; split; [now left|now left]|].
  intros [<-|H]; [exists a; split; [now left|now right]|]. destruct (IH H) as (y & Hy & E). exists y. split; [now right|exact E].
Qed.
Lemma separated_nil items : separated items = [] -> items = [].
Proof. destruct items as [|a [|b r]]; [reflexivity|discriminate|discriminate]. Qed.

(** the items of a statement: no key among columns and primary key *)
Lemma column_not_key c tail : is_key (column_text c ++ tail) = false.
Proof. reflexivity. Qed.
Lemma primary_not_key p x tail : In x (primary_text p) -> is_key (x ++ tail) = false.
Proof. destruct p; [|easy]. intros [<-|[]]. reflexivity. Qed.
Lemma statement name cols primary keys engine : ordinary name cols primary keys -> cols <> [] -> (List.length keys <= 1)%nat ->
  exists body, text (plain_lines name cols primary) = body ++ "010"%char :: chars ")" /\
    (sqlite_text (show_create name cols primary keys engine) = body ++ "010"%char :: chars ")" /\ keys = [] \/ sqlite_text (show_create name cols primary keys engine) = body ++ chars ")" /\ keys <> []).
Proof.
  intros (Hh & Hc & Hp & Hk) N K. unfold plain_lines. set (items := map column_text cols ++ primary_text primary).
  exists (text (header name :: separated items)). split; [change (text ((header name :: separated items) ++ [chars ")"]) = text (header name :: separated items) ++ "010"%char :: chars ")"); now apply text_last|].
  assert (I : items <> []) by (subst items; destruct cols; [congruence|discriminate]).
  assert (NK : forall x tail, In x items -> is_key (x ++ tail) = false).
  { intros x tail Hx. apply in_app_or in Hx as [Hx|Hx]; [apply in_map_iff in Hx as (c & <- & _); apply column_not_key|now apply (primary_not_key primary)]. }
  assert (NKs : forall x, In x (separated items) -> is_key x = false).
  { intros x Hx. apply separated_in in Hx as (y & Hy & [-> | ->]); [rewrite <- (app_nil_r y)|]; now apply NK. }
  assert (G : forall extra, (forall x, In x extra -> clean x = x /\ clean (x ++ chars ",") = x ++ chars ",") ->
    map strip_engine (map strip_comment (header name :: separated (map (fun c => column_text c ++ comment_text c) cols ++ extra) ++ [chars ") ENGINE" ++ engine]))
    = header name :: separated (map column_text cols ++ extra) ++ [chars ")"]).
  { intros extra He. rewrite map_map. fold clean. change (fun x => strip_engine (strip_comment x)) with clean. cbn [map]. rewrite map_app.
    assert (C1 : clean (header name) = header name) by (unfold clean; now apply cleaned). rewrite C1. f_equal. apply f_equal2; [|reflexivity].
    apply separated_map2; [|exact He]. intros c Hin. split; [|now apply cleaned_column; auto].
    pose proof (cleaned_column c [] (Hc c Hin) (or_introl eq_refl)) as E. rewrite !app_nil_r in E. exact E. }
  assert (P : forall x, In x (primary_text primary) -> clean x = x /\ clean (x ++ chars ",") = x ++ chars ",") by (intros x Hx; split; [now apply cleaned, Hp|now apply cleaned_comma, Hp]).
  destruct keys as [|k [|k2 keys]]; [left|right|cbn in K; lia]; (split; [|easy]); unfold sqlite_text, show_create.
  - change (map key_text []) with (@nil (list ascii)). rewrite app_nil_r, G by exact P. fold items. rewrite strip_keys_none; [rewrite text_join; change (header name :: separated items ++ [chars ")"]) with ((header name :: separated items) ++ [chars ")"]); now apply text_last|].
    cbn [tl]. intros x Hx. apply in_app_or in Hx as [Hx|[<-|[]]]; [now apply NKs|reflexivity].
  - change (map key_text [k]) with [key_text k]. rewrite G.
    + rewrite app_assoc. fold items. destruct (separated_app items (key_text k) I) as (b & l & A & B). rewrite B.
      change (header name :: (b ++ [l ++ chars ","; key_text k]) ++ [chars ")"]) with (((header name :: b) ++ [l ++ chars ","; key_text k]) ++ [chars ")"]). rewrite <- app_assoc. cbn [app].
      change (header name :: b ++ [l ++ chars ","; key_text k; chars ")"]) with ((header name :: b) ++ [l ++ chars ","; key_text k; chars ")"]).
      rewrite strip_keys_one, text_join, text_glue, A; [reflexivity| |reflexivity].
      intros x Hx. apply NKs. rewrite A. exact Hx.
    + intros x Hx. apply in_app_or in Hx as [Hx|[<-|[]]]; [now apply P|]. split; [apply cleaned, Hk; now left|apply cleaned_comma, Hk; now left].
Qed.

(** ---- the copy ---- *)
Lemma lookup_in {A} n (l : list (string * A)) x : lookup n l = Some x -> In (n, x) l.
Proof. unfold lookup. destruct (find _ l) as [[m y]|] eqn:F; [|discriminate]. intros E. injection E as <-. apply find_some in F as [I E]. apply String.eqb_eq in E. cbn in E. now subst. Qed.
Lemma in_lookup {A} n (l : list (string * A)) x : NoDup (map fst l) -> In (n, x) l -> lookup n l = Some x.
Proof.
  unfold lookup. induction l as [|[m y] l IH]; [easy|]. cbn. intros D [E|I].
  - injection E as -> ->. now rewrite String.eqb_refl.
  - inversion D as [|? ? D1 D2]; subst. destruct (String.eqb m n) eqn:E; [|now apply IH]. apply String.eqb_eq in E; subst. exfalso. apply D1. change n with (fst (n, x)). now apply in_map.
Qed.
Lemma lookup_absent {A} n (l : list (string * A)) : lookup n l = None <-> ~ In n (map fst l).
Proof.
  unfold lookup. induction l as [|[m y] l IH]; cbn; [tauto|]. destruct (String.eqb m n) eqn:E.
  - apply String.eqb_eq in E; subst. split; [discriminate|tauto].
  - apply String.eqb_neq in E. rewrite IH. tauto.
Qed.
Lemma lookup_app_last {A} n (l : list (string * A)) x : ~ In n (map fst l) -> lookup n (l ++ [(n, x)]) = Some x.
Proof.
  unfold lookup. induction l as [|[m y] l IH]; cbn; [now rewrite String.eqb_refl|]. intros N. destruct (String.eqb m n) eqn:E; [apply String.eqb_eq in E; tauto|]. apply IH. tauto.
Qed.
Lemma add_row_absent n r l : ~ In n (map fst l) -> add_row n r l = l.
Proof.
  unfold add_row. induction l as [|[m [k rows]] l IH]; [reflexivity|]. cbn. intros N. rewrite IH by tauto. destruct (String.eqb m n) eqn:E; [apply String.eqb_eq in E; tauto|reflexivity].
Qed.
Lemma add_row_last n r l k rows : ~ In n (map fst l) -> add_row n r (l ++ [(n, (k, rows))]) = l ++ [(n, (k, rows ++ [r]))].
Proof. intros N. unfold add_row at 1. rewrite map_app. fold (add_row n r l). rewrite (add_row_absent n r l N). cbn. now rewrite String.eqb_refl. Qed.
Section Copies.
Variables (parse : line -> option (string * nat)) (admits : string -> list row -> bool) (server : list (string * (list line * list row))).
Lemma inserting n nf (rows : list row) : forall c w k old, work c = w ++ [(n, (k, old))] -> ~ In n (map fst w) ->
  (forall c', In c' (fst (insert_rows admits n nf rows c)) -> disk c' = disk c) /\
  (forall c', snd (insert_rows admits n nf rows c) = Ok c' -> disk c' = disk c /\ work c' = w ++ [(n, (k, old ++ rows))]).
Proof.
  induction rows as [|r rows IH]; intros c w k old W N; cbn [insert_rows].
  - split; [easy|]. cbn. intros c' E. injection E as <-. now rewrite app_nil_r.
  - rewrite W, lookup_app_last by exact N. destruct (_ || _); [split; easy|]. destruct (negb _); [split; easy|].
    rewrite add_row_last by exact N. cbn [then_do].
    set (c1 := {| disk := disk c; work := w ++ [(n, (k, old ++ [r]))]; opened := true |}).
    destruct (IH c1 w k (old ++ [r]) eq_refl N) as [A B].
    destruct (insert_rows admits n nf rows c1) as [t q] eqn:E. cbn [fst snd app] in *. split.
    + intros c' [<-|Hc]; [reflexivity|]. exact (A c' Hc).
    + intros c' Eq. destruct (B c' Eq) as [B1 B2]. split; [exact B1|]. now rewrite B2, <- app_assoc.
Qed.
(** the names that sqlite reads in the statements are those of the tables *)
Variable Hnames : forall n st rows m k, lookup n server = Some (st, rows) -> parse (sqlite_text st) = Some (m, k) -> m = n.
Lemma one_table n c : opened c = false -> disk c = work c ->
  let s := then_do (create_table_sqlite parse server n c) (copy_all_rows admits server n) in
  exists k rows, (forall c', In c' (fst s) -> (exists st, lookup n server = Some (st, rows)) /\ (disk c' = disk c ++ [(n, (k, []))] \/ disk c' = disk c ++ [(n, (k, rows))])) /\
    (forall c', snd s = Ok c' -> (exists st, lookup n server = Some (st, rows)) /\ opened c' = false /\ disk c' = work c' /\ disk c' = disk c ++ [(n, (k, rows))]).
Proof.
  intros O W. cbv zeta. unfold create_table_sqlite. destruct (lookup n server) as [[st rows]|] eqn:L; [|exists 0%nat, []; split; easy].
  destruct (parse (sqlite_text st)) as [[m k]|] eqn:P; [|exists 0%nat, []; split; easy].
  pose proof (Hnames _ _ _ _ _ L P) as ->. destruct (lookup n (work c)) eqn:F; [exists 0%nat, []; split; easy|]. apply lookup_absent in F.
  rewrite O. exists k, rows. cbn [then_do]. set (c1 := {| disk := work c ++ [(n, (k, []))]; work := work c ++ [(n, (k, []))]; opened := false |}).
  unfold copy_all_rows. rewrite L. destruct rows as [|r rows].
  - cbn. split; [|intros c' E; injection E as <-; cbn; rewrite W; split; [eauto|auto]]. intros c' [<-|[<-|[]]]; (split; [eauto|left; cbn; now rewrite W]).
  - destruct (inserting n (List.length r) (r :: rows) c1 (work c) k [] eq_refl F) as [A B].
    destruct (insert_rows admits n (List.length r) (r :: rows) c1) as [t q] eqn:E. cbn [fst snd] in A, B. rewrite W. destruct q as [c2|e]; cbn [then_do commit fst snd app].
    + destruct (B c2 eq_refl) as [B1 B2]. split.
      * intros c' [<-|Hc]; [split; [eauto|now left]|]. apply in_app_or in Hc as [Hc|[<-|[]]]; [split; [eauto|left; exact (A c' Hc)]|]. split; [eauto|right]. exact B2.
      * intros c' Eq. injection Eq as <-. cbn. split; [eauto|]. split; [reflexivity|split; [reflexivity|exact B2]].
    + split; [|easy]. intros c' [<-|Hc]; [split; [eauto|now left]|]. split; [eauto|left; exact (A c' Hc)].
Qed.
Lemma copying tables : forall ready c, opened c = false -> disk c = work c -> Forall2 (copy_of server) ready (disk c) ->
  (forall c', In c' (fst (copy_tables parse admits server tables c)) -> copied_up_to server (ready ++ tables) (disk c')) /\
  (forall c', snd (copy_tables parse admits server tables c) = Ok c' -> disk c' = work c' /\ Forall2 (copy_of server) (ready ++ tables) (disk c')).
Proof.
  induction tables as [|n tables IH]; intros ready c O W R; cbn [copy_tables].
  - split; [easy|]. cbn. intros c' E. injection E as <-. now rewrite app_nil_r.
  - destruct (one_table n c O W) as (k & rows & A & B). cbv zeta in A, B. destruct (then_do (create_table_sqlite parse server n c) (copy_all_rows admits server n)) as [t q] eqn:E. cbn [fst snd] in A, B.
    assert (A' : forall c', In c' t -> copied_up_to server (ready ++ n :: tables) (disk c')).
    { intros c' Hc. destruct (A c' Hc) as [(st & L) [D|D]].
      - exists ready, (n :: tables). split; [reflexivity|]. right. exists n, tables, k, (disk c). now rewrite D.
      - exists (ready ++ [n]), tables. split; [now rewrite <- app_assoc|]. left. rewrite D. apply Forall2_app; [exact R|]. constructor; [|constructor]. split; [reflexivity|]. exists st. now apply lookup_in. }
    destruct q as [c1|e]; cbn [then_do]; [|split; [exact A'|easy]].
    destruct (B c1 eq_refl) as ((st & L) & O1 & W1 & D1).
    assert (R1 : Forall2 (copy_of server) (ready ++ [n]) (disk c1)) by (rewrite D1; apply Forall2_app; [exact R|]; constructor; [|constructor]; split; [reflexivity|]; exists st; now apply lookup_in).
    destruct (IH (ready ++ [n]) c1 O1 W1 R1) as [X Y]. rewrite <- app_assoc in X, Y. destruct (copy_tables parse admits server tables c1) as [t' q'] eqn:E'. cbn [fst snd app] in *. split; [|exact Y].
    intros c' Hc. apply in_app_or in Hc as [Hc|Hc]; [now apply A'|now apply X].
Qed.
(** nothing stands in the way of a sound table *)
Lemma insert_ok n nf (rows : list row) : forall c w old, work c = w ++ [(n, (nf, old))] -> ~ In n (map fst w) -> (forall r, In r rows -> List.length r = nf) ->
  (forall a b, old ++ rows = a ++ b -> admits n a = true) -> exists t c', insert_rows admits n nf rows c = (t, Ok c').
Proof.
  induction rows as [|r rows IH]; intros c w old W N L Ad; cbn [insert_rows]; [eauto|].
  rewrite W, lookup_app_last by exact N. rewrite Nat.eqb_refl, (L r) by now left. rewrite Nat.eqb_refl. cbn [negb orb].
  rewrite (Ad (old ++ [r]) rows) by now rewrite <- app_assoc. cbn [negb]. rewrite add_row_last by exact N. cbn [then_do].
  destruct (IH {| disk := disk c; work := w ++ [(n, (nf, old ++ [r]))]; opened := true |} w (old ++ [r]) eq_refl N) as (t & c' & E).
  - intros x Hx. apply L. now right.
  - intros a b E. apply (Ad a b). now rewrite <- E, <- app_assoc.
  - rewrite E. eauto.
Qed.
End Copies.
Lemma sound_parse parse admits (server : list (string * (list line * list row))) n : NoDup (map fst server) -> sound_table parse admits server n ->
  exists st rows k, lookup n server = Some (st, rows) /\ parse (sqlite_text st) = Some (n, k) /\ (forall r, In r rows -> List.length r = k) /\ (forall a b, rows = a ++ b -> admits n a = true).
Proof.
  intros D (cols & primary & keys & engine & rows & I & Nc & K & Or & Pa & Le & Ad).
  exists (show_create (chars n) cols primary keys engine), rows, (List.length cols). split; [now apply in_lookup|].
  destruct (statement (chars n) cols primary keys engine Or Nc K) as (body & E & F). destruct (Pa body E) as [P1 P2].
  split; [destruct F as [[-> _]|[-> _]]; assumption|split; assumption].
Qed.
Lemma copy_ok parse admits (server : list (string * (list line * list row))) tables : NoDup (map fst server) -> forall c, opened c = false -> disk c = work c -> NoDup (map fst (work c) ++ tables) ->
  (forall n, In n tables -> sound_table parse admits server n) -> exists t c', copy_tables parse admits server tables c = (t, Ok c').
Proof.
  intros D. induction tables as [|n tables IH]; intros c O W N S; cbn [copy_tables]; [eauto|].
  destruct (sound_parse parse admits server n D (S n (or_introl eq_refl))) as (st & rows & k & L & P & Le & Ad).
  assert (F : ~ In n (map fst (work c))) by (apply NoDup_remove_2 in N; intros H; apply N, in_or_app; now left).
  unfold create_table_sqlite. rewrite L, P. rewrite (proj2 (lookup_absent n (work c)) F). rewrite O. cbn [then_do]. unfold copy_all_rows at 1. rewrite L.
  assert (N' : forall d : list (string * table), map fst d = map fst (work c) ++ [n] -> NoDup (map fst d ++ tables)) by (intros d ->; now rewrite <- app_assoc).
  assert (X : forall (k' : nat) (rs : list row), map fst (work c ++ [(n, (k', rs))]) = map fst (work c) ++ [n]) by (intros ? ?; now rewrite map_app).
  destruct rows as [|r rows].
  - destruct (IH {| disk := work c ++ [(n, (k, []))]; work := work c ++ [(n, (k, []))]; opened := false |} eq_refl eq_refl) as (t & c' & E); [apply N', X|intros m Hm; apply S; now right|].
    cbn. rewrite E. eauto.
  - set (c1 := {| disk := work c ++ [(n, (k, []))]; work := work c ++ [(n, (k, []))]; opened := false |}).
    rewrite (Le r) by now left.
    destruct (insert_ok admits n k (r :: rows) c1 (work c) [] eq_refl F Le Ad) as (t & c2 & E).
    destruct (inserting admits n k (r :: rows) c1 (work c) k [] eq_refl F) as [_ B]. rewrite E in *. destruct (B c2 eq_refl) as [_ B2]. cbn [then_do commit].
    destruct (IH {| disk := work c2; work := work c2; opened := false |} eq_refl eq_refl) as (t' & c' & E'); [apply N'; cbn; rewrite B2; apply X|intros m Hm; apply S; now right|].
    rewrite E'. eauto.
Qed.
