(** Times: texts, calendar and order (C70). *)
From Coq Require Import Lia Bool ZifyBool ZifyNat.
From Verif.Model Require Import Base Str GoTime Der.
From Verif.Spec Require Import ObjSpec TimeSpec.
From Verif.Proofs Require Import DerBytes DerPrim.
Ltac Zify.zify_post_hook ::= Z.div_mod_to_equations.

(** ** The calendar *)
Definition lp (y : Z) : Z := if leap y then 1 else 0.
Lemma feb : forall y, month_days y 2 = 28 + lp y.
Proof. intros y. unfold month_days, lp, leap. change (2 =? 2) with true. cbv iota. destruct (_ && _); reflexivity. Qed.

Lemma year_sum : forall y, sum (map (month_days y) months) = 365 + lp y.
Proof.
  intros y. unfold months. cbn [map sum fold_right]. rewrite feb.
  unfold month_days. cbn [Z.eqb Pos.eqb existsb orb]. lia.
Qed.

(** Leap years below [y] *)
Definition leaps (y : Z) : Z := (y + 3) / 4 - (y + 99) / 100 + (y + 399) / 400.
Lemma leaps_step : forall y, leaps (y + 1) = leaps y + lp y.
Proof. intros y. unfold leaps, lp, leap. destruct (_ && _) eqn:E; lia. Qed.

Lemma years_closed : forall n, years n = 365 * Z.of_nat n + leaps (Z.of_nat n).
Proof.
  induction n as [|n IH]; [reflexivity|]. cbn [years]. rewrite IH, year_sum.
  replace (Z.of_nat (S n)) with (Z.of_nat n + 1) by lia. rewrite leaps_step. lia.
Qed.

Lemma march_years : forall y, (y / 400) * 146097 + ((y - y / 400 * 400) * 365 + (y - y / 400 * 400) / 4 - (y - y / 400 * 400) / 100)
  = 365 * y + leaps (y + 1) - 1.
Proof. intros y. unfold leaps. lia. Qed.

Lemma months_before : forall y m, 1 <= m <= 12 ->
  sum (map (month_days y) (filter (fun k => k <? m) months)) =
    (if m <=? 2 then 31 * (m - 1) else 59 + lp y + (153 * ((m + 9) mod 12) + 2) / 5).
Proof.
  intros y m Hm. assert (C : In m months) by (unfold months; cbn [In]; lia). clear Hm.
  assert (F2 := feb y). set (l := lp y) in *. clearbody l. unfold months in C.
  repeat (destruct C as [<-|C]; [vm_compute (_ mod _); cbn [filter months Z.ltb Z.leb Z.compare Pos.compare Pos.compare_cont map sum fold_right];
      rewrite ?F2; clear F2; change (month_days y 1) with 31; change (month_days y 3) with 31; change (month_days y 4) with 30;
      change (month_days y 5) with 31; change (month_days y 6) with 30; change (month_days y 7) with 31;
      change (month_days y 8) with 31; change (month_days y 9) with 30; change (month_days y 10) with 31; change (month_days y 11) with 30;
      lia|]).
  contradiction.
Qed.

Lemma unix_days_number : forall y m d, 0 <= y -> 1 <= m <= 12 ->
  unix_days y m d = day_number y m d - day_number 1970 1 1.
Proof.
  intros y m d Hy Hm.
  assert (E0 : day_number 1970 1 1 = 719528) by (vm_compute; reflexivity). rewrite E0.
  unfold unix_days, day_number. rewrite years_closed, Z2Nat.id by lia. rewrite months_before by exact Hm. cbv zeta.
  assert (L : leaps (y + 1) = leaps y + lp y) by apply leaps_step.
  destruct (m <=? 2) eqn:E.
  - pose proof (march_years (y - 1)) as M. replace (y - 1 + 1) with y in M by lia.
    assert (P : (153 * ((m + 9) mod 12) + 2) / 5 = 306 + 31 * (m - 1)).
    { assert (X : m = 1 \/ m = 2) by (clear - Hm E; lia). destruct X; subst m; reflexivity. }
    rewrite P. clear P L. set (a := (y - 1) / 400) in *. set (b := y - 1 - a * 400) in *.
    set (b4 := b / 4) in *. set (b1 := b / 100) in *. set (le := leaps y) in *. clearbody a b b4 b1 le.
    lia.
  - pose proof (march_years y) as M. set (P := (153 * ((m + 9) mod 12) + 2) / 5). set (a := y / 400) in *. set (b := y - a * 400) in *.
    set (b4 := b / 4) in *. set (b1 := b / 100) in *. rewrite L in M. set (le := leaps y) in *. set (ll := lp y) in *.
    clearbody a b b4 b1 le P ll. clear E. lia.
Qed.

Lemma unix_instant : forall t, calendar t -> unix t = instant t.
Proof.
  intros t (Hy & Hm & _). unfold unix, instant. rewrite unix_days_number by lia. lia.
Qed.

(** ** The order *)
Lemma days_month : forall y m, days_in m y = month_days y m.
Proof.
  intros y m. unfold days_in, month_days, leap. destruct (m =? 2); [reflexivity|]. cbn [existsb].
  destruct (m =? 4), (m =? 6), (m =? 9), (m =? 11); reflexivity.
Qed.
Lemma month_bound : forall y m, 28 <= month_days y m <= 31.
Proof. intros y m. rewrite <- days_month. apply days_in_bound. Qed.

Lemma months_step : forall y m, 1 <= m <= 11 ->
  sum (map (month_days y) (filter (fun k => k <? m + 1) months)) =
  sum (map (month_days y) (filter (fun k => k <? m) months)) + month_days y m.
Proof.
  intros y m Hm. assert (C : In m [1; 2; 3; 4; 5; 6; 7; 8; 9; 10; 11]) by (cbn [In]; lia). clear Hm.
  repeat (destruct C as [<-|C]; [cbn [filter months Z.ltb Z.add Z.compare Pos.compare Pos.compare_cont Pos.add Pos.succ map sum fold_right];
    lia|]).
  contradiction.
Qed.
Lemma months_mono : forall y k m, 1 <= m -> m + Z.of_nat (S k) <= 12 ->
  sum (map (month_days y) (filter (fun k => k <? m) months)) + month_days y m <=
  sum (map (month_days y) (filter (fun j => j <? m + Z.of_nat (S k)) months)).
Proof.
  induction k as [|k IH]; intros m H1 H2.
  - change (Z.of_nat 1) with 1. rewrite months_step by lia. lia.
  - specialize (IH m H1 ltac:(lia)). replace (m + Z.of_nat (S (S k))) with (m + Z.of_nat (S k) + 1) by lia.
    rewrite months_step by lia. pose proof (month_bound y (m + Z.of_nat (S k))). lia.
Qed.
Lemma months_end : forall y m, 1 <= m <= 12 ->
  sum (map (month_days y) (filter (fun k => k <? m) months)) + month_days y m <= sum (map (month_days y) months).
Proof.
  intros y m Hm. destruct (Z.eq_dec m 12) as [->|N].
  - cbn [filter months Z.ltb Z.compare Pos.compare Pos.compare_cont map sum fold_right]. lia.
  - pose proof (months_mono y (Z.to_nat (12 - m - 1)) m ltac:(lia) ltac:(lia)) as X.
    replace (m + Z.of_nat (S (Z.to_nat (12 - m - 1)))) with 12 in X by lia.
    assert (Y : sum (map (month_days y) (filter (fun k => k <? 12) months)) <= sum (map (month_days y) months)).
    { cbn [filter months Z.ltb Z.compare Pos.compare Pos.compare_cont map sum fold_right]. pose proof (month_bound y 12). lia. }
    lia.
Qed.
Lemma years_mono : forall k n, years (S n) <= years (S n + k).
Proof.
  induction k as [|k IH]; intros n; [rewrite Nat.add_0_r; lia|].
  rewrite <- plus_n_Sm. specialize (IH n). cbn [years] in *. fold years in *.
  assert (0 <= sum (map (month_days (Z.of_nat (S n + k))) months)) by (rewrite year_sum; unfold lp; destruct (leap _); lia).
  cbn [Nat.add years] in *. lia.
Qed.

Lemma day_order : forall y m d y' m' d', 0 <= y -> 0 <= y' -> 1 <= m <= 12 -> 1 <= m' <= 12 ->
  1 <= d <= month_days y m -> 1 <= d' <= month_days y' m' ->
  before [y; m; d] [y'; m'; d'] -> day_number y m d < day_number y' m' d'.
Proof.
  intros y m d y' m' d' Y Y' M M' D D' H. unfold day_number.
  assert (P : forall y m, 1 <= m -> 0 <= sum (map (month_days y) (filter (fun k => k <? m) months))).
  { intros a b _. induction (filter _ months) as [|x l IH]; [discriminate|]. cbn [map sum fold_right]. fold (sum (map (month_days a) l)).
    pose proof (month_bound a x). lia. }
  cbn [before] in H. destruct H as [H|[-> [H|[-> [H|[_ []]]]]]].
  - pose proof (months_end y m M). pose proof (P y' m' ltac:(lia)).
    pose proof (years_mono (Z.to_nat y' - S (Z.to_nat y)) (Z.to_nat y)) as X.
    replace (S (Z.to_nat y) + (Z.to_nat y' - S (Z.to_nat y)))%nat with (Z.to_nat y') in X by lia.
    cbn [years] in X. rewrite Z2Nat.id in X by lia. lia.
  - pose proof (months_mono y' (Z.to_nat (m' - m - 1)) m ltac:(lia) ltac:(lia)) as X.
    replace (m + Z.of_nat (S (Z.to_nat (m' - m - 1)))) with m' in X by lia. lia.
  - lia.
Qed.

Lemma before_total : forall a b, length a = length b -> before a b \/ a = b \/ before b a.
Proof.
  induction a as [|x a IH]; intros [|y b] L; try discriminate; [now right; left|].
  cbn [before]. injection L as L. destruct (Z.lt_trichotomy x y) as [H|[->|H]].
  - left. now left.
  - destruct (IH b L) as [H|[->|H]]; [left; right; auto|right; left; reflexivity|right; right; right; auto].
  - right. right. left. lia.
Qed.

Lemma before_split : forall a a' b b', length a = length a' -> before (a ++ b) (a' ++ b') -> before a a' \/ a = a' /\ before b b'.
Proof.
  induction a as [|x a IH]; intros [|x' a'] b b' L H; try discriminate; [now right|].
  injection L as L. cbn [app before] in *. destruct H as [H|[-> H]]; [left; now left|].
  destruct (IH _ _ _ L H) as [X|[-> X]]; [left; right; auto|right; auto].
Qed.

Lemma instant_mono : forall t u, calendar t -> calendar u -> tm_off t = tm_off u ->
  before (fields t) (fields u) -> instant t < instant u.
Proof.
  intros [y m d hh mm ss o] [y' m' d' hh' mm' ss' o'] T U O B. unfold calendar, fields, instant in *.
  cbn [tm_year tm_month tm_day tm_hour tm_min tm_sec tm_off] in *. subst o'.
  destruct T as (Ty & Tm & Td & Th & Tn & Ts & _). destruct U as (Uy & Um & Ud & Uh & Un & Us & _).
  change [y; m; d; hh; mm; ss] with ([y; m; d] ++ [hh; mm; ss]) in B. change [y'; m'; d'; hh'; mm'; ss'] with ([y'; m'; d'] ++ [hh'; mm'; ss']) in B.
  apply before_split in B; [|reflexivity]. destruct B as [B|[E B]].
  - pose proof (day_order y m d y' m' d' ltac:(lia) ltac:(lia) Tm Um Td Ud B). lia.
  - injection E as -> -> ->. cbn [before] in B. lia.
Qed.
Lemma instant_order : forall t u, calendar t -> calendar u -> tm_off t = tm_off u ->
  (instant t < instant u <-> before (fields t) (fields u)).
Proof.
  intros t u T U O. split; [|now apply instant_mono]. intros H.
  destruct (before_total (fields t) (fields u) eq_refl) as [B|[E|B]]; [exact B| |].
  - exfalso. destruct t as [y1 m1 d1 h1 n1 s1 o1], u as [y2 m2 d2 h2 n2 s2 o2]. unfold fields, instant in *. cbn [tm_year tm_month tm_day tm_hour tm_min tm_sec tm_off] in *.
    injection E as -> -> -> -> -> ->. subst. lia.
  - pose proof (instant_mono u t U T (eq_sym O) B). lia.
Qed.

(** ** Texts *)
Lemma read_num_spec : forall k acc l n r, read_num k acc l = Some (n, r) <->
  exists x, l = x ++ r /\ length x = k /\ Forall (fun b => 48 <= b <= 57) x /\ fold_left (fun n b => n * 10 + (b - 48)) x acc = n.
Proof.
  induction k as [|k IH]; intros acc l n r; cbn [read_num].
  - split.
    + intros H. injection H as -> ->. exists []. repeat split; constructor.
    + intros ([|] & -> & L & _ & <-); [reflexivity|discriminate].
  - destruct l as [|b l].
    + split; [discriminate|]. intros ([|] & H & L & _); [discriminate|]. discriminate.
    + destruct (digit b) eqn:D.
      * rewrite IH. unfold digit in D. split.
        -- intros (x & -> & L & F & E). exists (b :: x). cbn [app length fold_left]. repeat split; [congruence|constructor; [lia|exact F]|exact E].
        -- intros (x & H & L & F & E). destruct x as [|b' x]; [discriminate|]. injection H as -> ->. cbn [fold_left] in E.
           injection L as L. inversion F; subst. now exists x.
      * split; [discriminate|]. intros (x & H & L & F & E). destruct x as [|b' x]; [discriminate|]. injection H as -> ->.
        inversion F; subst. unfold digit in D. lia.
Qed.
Lemma read_number : forall k l n r, read_num k 0 l = Some (n, r) <-> exists x, l = x ++ r /\ number k x n.
Proof. intros. rewrite read_num_spec. reflexivity. Qed.
Lemma number_range2 : forall l n, number 2 l n -> 0 <= n < 100.
Proof.
  intros l n (L & F & E). destruct l as [|a [|b [|]]]; try discriminate. inversion F as [|? ? A F1]. inversion F1 as [|? ? B _].
  subst. cbn [decimal fold_left]. unfold decimal. cbn [fold_left]. lia.
Qed.

Lemma zone_exact : forall l o, read_zone l = Some o <-> zone_text l o /\ Z.abs o < 1500.
Proof.
  intros l o. split.
  - intros H. unfold read_zone in H.
    assert (G : forall s r, (if (s =? 43) || (s =? 45) then
        match read_num 2 0 r with
        | Some (hh, r1) =>
            match read_num 2 0 r1 with
            | Some (mm, []) =>
                if (hh <=? 24) && (mm <=? 59) && (0 <? hh * 60 + mm)
                then Some (if s =? 43 then hh * 60 + mm else - (hh * 60 + mm)) else None
            | _ => None
            end
        | None => None
        end else None) = Some o -> zone_text (s :: r) o /\ Z.abs o < 1500).
    { intros s r X. destruct ((s =? 43) || (s =? 45)) eqn:S; [|discriminate].
      destruct (read_num 2 0 r) as [[hh r1]|] eqn:E1; [|discriminate].
      destruct (read_num 2 0 r1) as [[mm [|]]|] eqn:E2; try discriminate.
      destruct (_ && _) eqn:B; [|discriminate]. apply some_eq in X.
      apply read_number in E1. destruct E1 as (h & -> & N1). apply read_number in E2. destruct E2 as (m & -> & N2).
      rewrite app_nil_r in *. pose proof (number_range2 _ _ N1). pose proof (number_range2 _ _ N2).
      split; [|destruct (s =? 43); lia]. right. exists s, h, m, hh, mm. split; [reflexivity|]. split; [exact N1|].
      split; [exact N2|]. split; [lia|]. split; [destruct (s =? 43); lia|].
      destruct (s =? 43) eqn:S3; [left|right]; lia. }
    destruct l as [|s r]; [discriminate|].
    destruct (Z.eq_dec s 90) as [->|N].
    + destruct r as [|x r]; [|now apply G].
      cbn [Z.eqb] in H. injection H as <-. split; [left; auto|lia].
    + apply G. rewrite <- H. destruct s as [|s|s]; try reflexivity. destruct s as [s|s|]; try reflexivity;
        repeat (destruct s as [s|s|]; try reflexivity). now destruct r.
  - intros [[[-> ->]|(s & h & m & hh & mm & -> & Nh & Nm & M & O & S)] B]; [reflexivity|].
    assert (E1 : read_num 2 0 (h ++ m) = Some (hh, m)) by (apply read_number; now exists h).
    assert (E2 : read_num 2 0 m = Some (mm, [])) by (apply read_number; exists m; rewrite app_nil_r; now split).
    pose proof (number_range2 _ _ Nh). pose proof (number_range2 _ _ Nm).
    unfold read_zone. assert (X : s = 43 \/ s = 45) by lia.
    destruct X as [-> | ->]; cbn [Z.eqb Pos.eqb orb]; rewrite E1, E2;
      (destruct ((hh <=? 24) && (mm <=? 59) && (0 <? hh * 60 + mm)) eqn:C; [f_equal; lia|lia]).
Qed.

Lemma zone_digits : forall x n r, number 2 x n -> read_zone (x ++ r) = None.
Proof.
  intros x n r (L & F & _). destruct x as [|a [|b [|]]]; try discriminate. cbn [app].
  inversion F as [|? ? A F1]. clear F F1 L n. unfold read_zone.
  assert (E : (a =? 43) || (a =? 45) = false) by lia. rewrite E.
  destruct a as [|a|a]; try lia. repeat (destruct a as [a|a|]; try reflexivity).
Qed.

Lemma date_exact : forall secs y l t, 0 <= y <= 9999 ->
  (read_date secs y l = Some t <-> tm_year t = y /\ after_year secs l t /\ calendar t).
Proof.
  intros secs y l t Hy. unfold read_date. split.
  - intros H.
    destruct (read_num 2 0 l) as [[m l1]|] eqn:E1; [|discriminate]. cbn [bindo] in H.
    destruct (read_num 2 0 l1) as [[d l2]|] eqn:E2; [|discriminate]. cbn [bindo] in H.
    destruct (read_num 2 0 l2) as [[hh l3]|] eqn:E3; [|discriminate]. cbn [bindo] in H.
    destruct (read_num 2 0 l3) as [[mm l4]|] eqn:E4; [|discriminate]. cbn [bindo] in H.
    destruct (if secs then read_num 2 0 l4 else Some (0, l4)) as [[ss l5]|] eqn:E5; [|discriminate]. cbn [bindo] in H.
    destruct (read_zone l5) as [off|] eqn:E6; [|discriminate]. cbn [bindo] in H.
    destruct (date_ok y m d hh mm ss) eqn:D; [|discriminate]. apply some_eq in H. subst t.
    apply read_number in E1, E2, E3, E4. destruct E1 as (x1 & -> & N1). destruct E2 as (x2 & -> & N2).
    destruct E3 as (x3 & -> & N3). destruct E4 as (x4 & -> & N4). apply zone_exact in E6. destruct E6 as [Zt Zb].
    assert (X : exists x5, l4 = x5 ++ l5 /\ (if secs then number 2 x5 ss else x5 = [] /\ ss = 0) /\ 0 <= ss).
    { destruct secs.
      - apply read_number in E5. destruct E5 as (x5 & -> & N5). exists x5. pose proof (number_range2 _ _ N5). repeat split; auto; try lia; apply N5.
      - injection E5 as <- <-. exists []. repeat split. lia. }
    destruct X as (x5 & -> & N5 & S5).
    unfold after_year, calendar. cbn [tm_year tm_month tm_day tm_hour tm_min tm_sec tm_off].
    split; [reflexivity|]. split.
    + exists x1, x2, x3, x4, x5, l5. repeat (split; [first [reflexivity|assumption]|]). exact Zt.
    + unfold date_ok in D. rewrite days_month in D. pose proof (number_range2 _ _ N3). pose proof (number_range2 _ _ N4). lia.
  - intros (Ey & (x1 & x2 & x3 & x4 & x5 & z & -> & N1 & N2 & N3 & N4 & N5 & Zt) & C).
    destruct t as [ty m d hh mm ss off]. unfold calendar in C. cbn [tm_year tm_month tm_day tm_hour tm_min tm_sec tm_off] in *.
    subst ty. destruct C as (C1 & C2 & C3 & C4 & C5 & C6 & C7).
    assert (R : forall x n r, number 2 x n -> read_num 2 0 (x ++ r) = Some (n, r)) by (intros; apply read_number; eauto).
    rewrite (R _ _ _ N1). cbn [bindo]. rewrite (R _ _ _ N2). cbn [bindo]. rewrite (R _ _ _ N3). cbn [bindo].
    rewrite (R _ _ _ N4). cbn [bindo].
    assert (X : (if secs then read_num 2 0 (x5 ++ z) else Some (0, x5 ++ z)) = Some (ss, z)).
    { destruct secs; [now apply R|]. destruct N5 as [-> ->]. reflexivity. }
    match goal with |- context [if secs then ?a else ?b] => replace (if secs then a else b) with (Some (ss, z)) by (symmetry; exact X) end. cbn [bindo]. assert (Y : read_zone z = Some off) by (apply zone_exact; now split). rewrite Y. cbn [bindo].
    assert (D : date_ok y m d hh mm ss = true) by (unfold date_ok; rewrite days_month; lia). now rewrite D.
Qed.

Lemma number_range4 : forall l n, number 4 l n -> 0 <= n <= 9999.
Proof.
  intros l n (L & F & E). destruct l as [|a [|b [|c [|d [|]]]]]; try discriminate.
  inversion F as [|? ? A F1]. inversion F1 as [|? ? B F2]. inversion F2 as [|? ? C F3]. inversion F3 as [|? ? D _].
  subst. unfold decimal. cbn [fold_left]. lia.
Qed.

Lemma generalized_exact : forall l t, parse_generalized l = Some t <-> generalized_text l t.
Proof.
  intros l t. unfold parse_generalized, generalized_text. split.
  - intros H. destruct (read_num 4 0 l) as [[y r]|] eqn:E; [|discriminate]. cbn [bindo] in H.
    apply read_number in E. destruct E as (x & -> & N). pose proof (number_range4 _ _ N) as B.
    apply date_exact in H; [|exact B]. destruct H as (Ey & A & C). exists x, r. rewrite Ey. auto.
  - intros (x & r & -> & N & A & C). assert (E : read_num 4 0 (x ++ r) = Some (tm_year t, r)) by (apply read_number; eauto).
    rewrite E. cbn [bindo]. apply date_exact; [apply C|]. auto.
Qed.

Lemma seconds_differ : forall y l t u, 0 <= y <= 9999 -> read_date true y l = Some t -> read_date false y l = Some u -> False.
Proof.
  intros y l t u Hy H1 H2. apply date_exact in H1; [|exact Hy]. destruct H1 as (_ & (x1 & x2 & x3 & x4 & x5 & z & -> & N1 & N2 & N3 & N4 & N5 & _) & _).
  unfold read_date in H2.
  assert (R : forall x n r, number 2 x n -> read_num 2 0 (x ++ r) = Some (n, r)) by (intros; apply read_number; eauto).
  rewrite (R _ _ _ N1) in H2. cbn [bindo] in H2. rewrite (R _ _ _ N2) in H2. cbn [bindo] in H2.
  rewrite (R _ _ _ N3) in H2. cbn [bindo] in H2. rewrite (R _ _ _ N4) in H2. cbn [bindo] in H2.
  rewrite (zone_digits _ _ z N5) in H2. discriminate.
Qed.

Lemma utc_exact : forall l t, parse_utc l = Some t <-> utc_text l t.
Proof.
  intros l t. unfold parse_utc, utc_text. split.
  - intros H. destruct (read_num 2 0 l) as [[yy r]|] eqn:E; [|discriminate]. cbn [bindo] in H.
    apply read_number in E. destruct E as (x & -> & N). pose proof (number_range2 _ _ N) as B.
    set (y := if yy <? 50 then 2000 + yy else 1900 + yy) in *.
    assert (By : 0 <= y <= 9999) by (subst y; destruct (yy <? 50); lia).
    assert (Ey : y = (if yy <? 50 then 2000 else 1900) + yy) by (subst y; now destruct (yy <? 50)).
    destruct (read_date false y r) as [t'|] eqn:D.
    + apply some_eq in H. subst t'. apply date_exact in D; [|exact By]. destruct D as (Et & A & C).
      exists x, r, yy, false. rewrite Et. auto.
    + apply date_exact in H; [|exact By]. destruct H as (Et & A & C). exists x, r, yy, true. rewrite Et. auto.
  - intros (x & r & yy & secs & -> & N & Ey & A & C).
    assert (E : read_num 2 0 (x ++ r) = Some (yy, r)) by (apply read_number; eauto).
    rewrite E. cbn [bindo]. pose proof (number_range2 _ _ N) as B.
    replace (if yy <? 50 then 2000 + yy else 1900 + yy) with (tm_year t) by (rewrite Ey; now destruct (yy <? 50)).
    assert (D : read_date secs (tm_year t) r = Some t) by (apply date_exact; [apply C|auto]).
    destruct secs; [|now rewrite D].
    destruct (read_date false (tm_year t) r) as [u|] eqn:F; [|exact D].
    exfalso. exact (seconds_differ _ _ _ _ (proj1 C) D F).
Qed.
