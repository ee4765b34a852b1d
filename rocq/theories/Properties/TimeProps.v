(** C01-C10, C61: the Time class.  Statements only; proofs are in theories/Proofs. *)
From Coq Require Import ZArith QArith Qreals Reals Lia Bool List.
From Coq.Floats Require Import SpecFloat.
From Flocq Require Import Core BinarySingleNaN.
From Verif.Model Require Import Base Float TimeModel.
From Verif.Spec Require Import Outcome TimeSpec AsIsSpec.
From Verif.Proofs Require Import TimeProofs TimeFloatProofs TimeAddProofs TimeFinal.
Import ListNotations.
Local Open Scope Z_scope.

(** C01 *)
Theorem C01_from_hms_components : forall h m s ms,
  0 <= h -> 0 <= m < 60 -> 0 <= s < 60 -> is_int (h * 3600 + m * 60 + s) -> is_int ms ->
  exists t, from_hms h m s ms = Ok t /\ hours t = h /\ minutes t = m /\ seconds t = s /\ milliseconds t = Ok ms /\
            t_rate t = Some (mkR 1000 1).
Proof. exact from_hms_components. Qed.
Print Assumptions C01_from_hms_components.
Example C01_case : 0 <= 596523 /\ 0 <= 59 < 60 /\ is_int (596523 * 3600 + 14 * 60 + 7) /\ is_int (-2147483648).
Proof. unfold is_int. lia. Qed.

Theorem C01_from_hmsf_components : forall h m s f r,
  0 <= h -> 0 <= m < 60 -> 0 <= s < 60 -> is_int (h * 3600 + m * 60 + s) ->
  exists t, from_hmsf h m s f r = Ok t /\ hours t = h /\ minutes t = m /\ seconds t = s /\ t_frames t = f /\ t_rate t = r.
Proof. exact from_hmsf_components. Qed.
Print Assumptions C01_from_hmsf_components.

(** C02.  With one rate for both. *)
Theorem C02_same_rate_partial : forall r a b,
  positive_rate r -> t_rate a = Some r -> t_rate b = Some r -> normalised_at r a -> normalised_at r b ->
  product_fits r a -> product_fits r b ->
  decides (time_lt a b) (instant_at r a < instant_at r b)%Q /\
  decides (time_gt a b) (instant_at r b < instant_at r a)%Q /\
  decides (time_eq a b) (instant_at r a == instant_at r b)%Q /\
  decides (time_ne a b) (~ instant_at r a == instant_at r b)%Q.
Proof. exact same_rate_all. Qed.
Print Assumptions C02_same_rate_partial.
Example C02_case : let r := mkR 24000 1001 in
  positive_rate r /\ normalised_at r (mkT 5 23 (Some r)) /\ product_fits r (mkT 5 23 (Some r)).
Proof. unfold positive_rate, normalised_at, product_fits, is_int, frames_duration. cbn. repeat split; try lia; now vm_compute. Qed.

(** The products fit for every normalised Time at every rate with numerator up to 46340, and at the
    film and television rates with denominator 1001 up to 30000/1001. *)
Theorem C02_products_fit : forall r t,
  positive_rate r -> normalised_at r t ->
  num r <= 46340 -> product_fits r t.
Proof. exact products_fit. Qed.
Print Assumptions C02_products_fit.
Example C02_products_case : num (mkR 30000 1001) <= 46340 /\ positive_rate (mkR 30000 1001).
Proof. split; [cbn; lia | split; reflexivity]. Qed.

(** Without a rate: right for every rate the frames may stand for. *)
Theorem C02_no_rate : forall r a b,
  positive_rate r -> t_rate a = None -> t_rate b = None -> normalised_at r a -> normalised_at r b ->
  decides (time_lt a b) (instant_at r a < instant_at r b)%Q /\
  decides (time_gt a b) (instant_at r b < instant_at r a)%Q /\
  decides (time_eq a b) (instant_at r a == instant_at r b)%Q /\
  decides (time_ne a b) (~ instant_at r a == instant_at r b)%Q.
Proof. exact no_rate_all. Qed.
Print Assumptions C02_no_rate.
Example C02_no_rate_case : normalised_at (mkR 25 1) (mkT 7 24 None).
Proof. split; [cbn; lia | now vm_compute]. Qed.

(** Missing from C02_same_rate_partial: at 60000/1001 two Times in one second overflow int. *)
Theorem C02_refuted : exists r a b,
  positive_rate r /\ t_rate a = Some r /\ t_rate b = Some r /\ normalised_at r a /\ normalised_at r b /\
  time_lt a b = Undef UbIntOverflow /\ time_eq a b = Undef UbIntOverflow.
Proof. exact same_rate_overflow. Qed.
Print Assumptions C02_refuted.

(** In every case the comparison is either right or undefined, and it is undefined just when the whole seconds are
    equal and a product does not fit. *)
Theorem C02_as_is : forall r a b,
  positive_rate r -> t_rate a = Some r -> t_rate b = Some r -> normalised_at r a -> normalised_at r b ->
  ((t_seconds a <> t_seconds b \/ product_fits r a /\ product_fits r b) ->
    decides (time_lt a b) (instant_at r a < instant_at r b)%Q /\
    decides (time_gt a b) (instant_at r b < instant_at r a)%Q /\
    decides (time_eq a b) (instant_at r a == instant_at r b)%Q /\
    decides (time_ne a b) (~ instant_at r a == instant_at r b)%Q) /\
  (~ (t_seconds a <> t_seconds b \/ product_fits r a /\ product_fits r b) ->
    (exists u, time_lt a b = Undef u) /\ (exists u, time_gt a b = Undef u) /\
    (exists u, time_eq a b = Undef u) /\ (exists u, time_ne a b = Undef u)).
Proof. exact same_rate_as_is. Qed.
Print Assumptions C02_as_is.
Example C02_as_is_case : let r := mkR 60000 1001 in
  normalised_at r (mkT 5 40 (Some r)) /\ ~ product_fits r (mkT 5 40 (Some r)) /\ product_fits r (mkT 5 30 (Some r)).
Proof.
  unfold normalised_at, product_fits, is_int, frames_duration. cbn [t_frames num den].
  split; [split; [lia|now vm_compute]|]. split; [lia|lia].
Qed.

(** C03 *)
Theorem C03_different_rates_refuted : exists ra rb a b,
  positive_rate ra /\ positive_rate rb /\ t_rate a = Some ra /\ t_rate b = Some rb /\
  normalised_at ra a /\ normalised_at rb b /\
  time_lt a b = Ok true /\ (instant_at rb b < instant_at ra a)%Q.
Proof. exact different_rates_lt_wrong. Qed.
Print Assumptions C03_different_rates_refuted.

Theorem C03_different_rates_eq_refuted : exists ra rb a b,
  positive_rate ra /\ positive_rate rb /\ t_rate a = Some ra /\ t_rate b = Some rb /\
  normalised_at ra a /\ normalised_at rb b /\
  time_eq a b = Ok false /\ (instant_at rb b == instant_at ra a)%Q.
Proof. exact different_rates_eq_wrong. Qed.
Print Assumptions C03_different_rates_eq_refuted.

(** What holds: the comparison is right when the whole seconds differ or the rates are two spellings of one rate. *)
Theorem C03_different_rates_partial : forall ra rb a b,
  positive_rate ra -> positive_rate rb -> t_rate a = Some ra -> t_rate b = Some rb ->
  normalised_at ra a -> normalised_at rb b ->
  (t_seconds a <> t_seconds b \/ equivalent_rates ra rb /\ cross_fits a b) ->
  decides (time_lt a b) (instant_at ra a < instant_at rb b)%Q /\
  decides (time_gt a b) (instant_at rb b < instant_at ra a)%Q /\
  decides (time_eq a b) (instant_at ra a == instant_at rb b)%Q /\
  decides (time_ne a b) (~ instant_at ra a == instant_at rb b)%Q.
Proof. exact other_rate_all. Qed.
Print Assumptions C03_different_rates_partial.
Example C03_case : let a := mkT 5 23 (Some (mkR 24 1)) in let b := mkT 5 23 (Some (mkR 48 2)) in
  equivalent_rates (mkR 24 1) (mkR 48 2) /\ cross_fits a b /\ normalised_at (mkR 48 2) b.
Proof.
  split; [reflexivity|]. split; [intros ra rb [= <-] [= <-]; unfold is_int; cbn; lia|].
  split; [cbn; lia | now vm_compute].
Qed.

(** What is compared within one second, for all positive rates: the frames at the rates turned upside down. *)
Theorem C03_as_is : forall ra rb a b,
  positive_rate ra -> positive_rate rb -> t_rate a = Some ra -> t_rate b = Some rb -> t_seconds a = t_seconds b -> cross_fits a b ->
  let da := frames_duration (t_frames a) (upside_down ra) in let db := frames_duration (t_frames b) (upside_down rb) in
  decides (time_lt a b) (da < db)%Q /\ decides (time_gt a b) (db < da)%Q /\
  decides (time_eq a b) (da == db)%Q /\ decides (time_ne a b) (~ da == db)%Q.
Proof. exact other_rate_as_is. Qed.
Print Assumptions C03_as_is.
Example C03_as_is_case : let a := mkT 5 12 (Some (mkR 24 1)) in let b := mkT 5 300 (Some (mkR 1000 1)) in
  positive_rate (mkR 24 1) /\ positive_rate (mkR 1000 1) /\ t_seconds a = t_seconds b /\ cross_fits a b.
Proof. repeat split; intros; cbn in *; repeat match goal with H : Some _ = Some _ |- _ => injection H as <- end; unfold is_int; cbn; try lia. Qed.

(** C04 *)
Theorem C04_comparison_errors : forall a b,
  (time_eq a b = Throw EUnknownFrameRate <-> mixed_rates a b) /\
  (time_ne a b = Throw EUnknownFrameRate <-> mixed_rates a b) /\
  (time_lt a b = Throw EUnknownFrameRate <-> mixed_rates a b /\ t_seconds a = t_seconds b) /\
  (time_gt a b = Throw EUnknownFrameRate <-> mixed_rates a b /\ t_seconds a = t_seconds b) /\
  (forall e, time_eq a b = Throw e \/ time_ne a b = Throw e \/ time_lt a b = Throw e \/ time_gt a b = Throw e -> e = EUnknownFrameRate).
Proof. exact comparison_errors. Qed.
Print Assumptions C04_comparison_errors.

(** The only other way not to return is int overflow, in Times with equal whole seconds. *)
Theorem C04_comparison_overflow : forall a b,
  ((exists u, time_lt a b = Undef u) <-> t_seconds a = t_seconds b /\ ~ cross_fits a b) /\
  ((exists u, time_gt a b = Undef u) <-> t_seconds a = t_seconds b /\ ~ cross_fits a b) /\
  ((exists u, time_eq a b = Undef u) <-> t_seconds a = t_seconds b /\ ~ cross_fits a b) /\
  ((exists u, time_ne a b = Undef u) <-> t_seconds a = t_seconds b /\ ~ cross_fits a b).
Proof. exact comparison_overflow. Qed.
Print Assumptions C04_comparison_overflow.
Example C04_case : mixed_rates (mkT 1 2 None) (mkT 1 2 (Some (mkR 25 1))).
Proof. right. split; intros H; [apply H; reflexivity | discriminate H]. Qed.

(** C05 *)
Theorem C05_strict_weak_order : forall a b c, rate_ok a -> rate_ok b -> rate_ok c ->
  (forall x, time_lt a a = Ok x -> x = false) /\
  (time_lt a b = Ok true -> forall x, time_lt b a = Ok x -> x = false) /\
  (time_lt a b = Ok true -> time_lt b c = Ok true -> forall x, time_lt a c = Ok x -> x = true) /\
  (time_lt a b = Ok false -> time_lt b a = Ok false -> time_lt b c = Ok false -> time_lt c b = Ok false ->
   forall x, time_lt a c = Ok x \/ time_lt c a = Ok x -> x = false).
Proof. exact strict_weak_order. Qed.
Print Assumptions C05_strict_weak_order.

Theorem C05_trichotomy : forall a b l e g, time_lt a b = Ok l -> time_eq a b = Ok e -> time_gt a b = Ok g ->
  (l = true /\ e = false /\ g = false) \/ (l = false /\ e = true /\ g = false) \/ (l = false /\ e = false /\ g = true).
Proof. exact trichotomy. Qed.
Print Assumptions C05_trichotomy.

Theorem C05_gt_and_ne : forall a b,
  time_gt a b = time_lt b a /\
  (forall x, time_eq a b = Ok x -> time_ne a b = Ok (negb x)) /\ (forall x, time_ne a b = Ok x -> time_eq a b = Ok (negb x)).
Proof. exact gt_and_ne. Qed.
Print Assumptions C05_gt_and_ne.
Example C05_case : let a := mkT 1 2 (Some (mkR 25 1)) in let b := mkT 1 3 (Some (mkR 25 1)) in let c := mkT 1 3 (Some (mkR 30 1)) in
  rate_ok a /\ time_lt a b = Ok true /\ time_lt b c = Ok true /\ time_lt a c = Ok true.
Proof. split; [intros r [= <-]; reflexivity | vm_compute; auto]. Qed.

(** C06 *)
Theorem C06_frames_at_nearest : forall t tr r, t_rate t = Some tr -> positive_rate tr -> positive_rate r ->
  is_int (t_frames t) -> is_int (num tr) -> is_int (den tr) -> is_int (num r) -> is_int (den r) ->
  is_int (num tr * den r) -> Z.abs (t_frames t * den tr * num r) < 2 ^ 52 ->
  exists z, nearest_even (t_frames t * den tr * num r) (num tr * den r) z /\ as_int z (frames_at t r).
Proof. exact frames_at_spec. Qed.
Print Assumptions C06_frames_at_nearest.
Example C06_case : let tr := mkR 30000 1001 in let r := mkR 60000 1001 in
  is_int (num tr * den r) /\ Z.abs (29 * den tr * num r) < 2 ^ 52 /\ frames_at (mkT 0 29 (Some tr)) r = Ok 58.
Proof. unfold is_int. cbn [num den]. split; [lia | split; [lia | vm_compute; reflexivity]]. Qed.

(** The nearest integer is unique, so this fixes the result. *)
Theorem C06_nearest_unique : forall A B y z, 0 < B -> nearest_even A B y -> nearest_even A B z -> y = z.
Proof. exact nearest_even_unique. Qed.
Print Assumptions C06_nearest_unique.

Theorem C06_frames_at_errors : forall t r,
  (t_rate t = None -> frames_at t r = Throw EUnknownFrameRate) /\
  (forall tr, t_rate t = Some tr -> ~ is_int (num tr * den r) -> frames_at t r = Undef UbIntOverflow).
Proof. exact frames_at_other. Qed.
Print Assumptions C06_frames_at_errors.

(** C07 *)
Theorem C07_frame_ms_round_trip : forall s s' f fps, 1 <= fps <= 1000 -> 0 <= f < fps ->
  exists ms, milliseconds (mkT s f (Some (mkR fps 1))) = Ok ms /\ 0 <= ms <= 1000 /\
             frames_at (mkT s' ms (Some (mkR 1000 1))) (mkR fps 1) = Ok f.
Proof. exact frame_ms_frame. Qed.
Print Assumptions C07_frame_ms_round_trip.
Example C07_case : 1 <= 24 <= 1000 /\ 0 <= 23 < 24.
Proof. lia. Qed.

(** C08 *)
Theorem C08_from_frames : forall f r k, whole_rate r k -> 0 < k -> is_int f -> is_int k ->
  exists t, from_frames f r = Ok t /\ t_rate t = Some r /\ f = t_seconds t * k + t_frames t /\
            (0 <= f -> 0 <= t_frames t < k) /\ (f <= 0 -> - k < t_frames t <= 0).
Proof. exact from_frames_ok. Qed.
Print Assumptions C08_from_frames.
Example C08_case : whole_rate (mkR 50 2) 25.
Proof. split; [cbn; lia | reflexivity]. Qed.

Theorem C08_from_frames_errors : forall f r, is_int (num r) -> is_int (den r) ->
  (den r = 0 -> from_frames f r = Throw EProgramming) /\
  (den r <> 0 -> (forall k, num r <> k * den r) -> from_frames f r = Throw EProgramming) /\
  (den r <> 0 -> num r = 0 -> from_frames f r = Undef UbDivZero).
Proof. exact from_frames_errors. Qed.
Print Assumptions C08_from_frames_errors.
Example C08_errors_case : from_frames 100 (mkR 24000 1001) = Throw EProgramming.
Proof. vm_compute. reflexivity. Qed.

(** C09.  The exact sum is refuted: 1 ms + 9 ms gives 9 ms; 1 frame + 6 frames at 25 fps gives 6 frames. *)
Theorem C09_add_exact_refuted : exists r a b t,
  positive_rate r /\ t_rate a = Some r /\ t_rate b = Some r /\ normalised_at r a /\ normalised_at r b /\
  time_add a b = Ok t /\ t_rate t = Some r /\ (instant_at r t < instant_at r a + instant_at r b)%Q.
Proof. exact add_not_exact. Qed.
Print Assumptions C09_add_exact_refuted.

(** What holds: the milliseconds are added, converted to frames of the finer rate and rounded down, except that
    a sum that is exactly a frame may come out one frame short. *)
Theorem C09_add_partial : forall a b ra rb ka kb ma mb,
  t_rate a = Some ra -> t_rate b = Some rb ->
  positive_rate ra -> positive_rate rb -> whole_rate ra ka -> whole_rate rb kb ->
  is_int (num ra) -> is_int (den ra) -> is_int (num rb) -> is_int (den rb) ->
  normalised_at ra a -> normalised_at rb b -> 0 <= t_seconds a -> 0 <= t_seconds b ->
  nearest_even (t_frames a * den ra * 1000) (num ra) ma -> nearest_even (t_frames b * den rb * 1000) (num rb) mb ->
  is_int ((t_seconds a + t_seconds b + 2) * Z.max ka kb) ->
  exists t, time_add a b = Ok t /\
    t_rate t = Some (if kb <? ka then ra else rb) /\
    0 <= t_frames t < Z.max ka kb /\
    let N := Z.max ka kb * (1000 * (t_seconds a + t_seconds b) + ma + mb) in
    (t_seconds t * Z.max ka kb + t_frames t = N / 1000 \/
     N mod 1000 = 0 /\ t_seconds t * Z.max ka kb + t_frames t = N / 1000 - 1).
Proof. exact add_rounds_down. Qed.
Print Assumptions C09_add_partial.
Example C09_case : let ra := mkR 24 1 in let rb := mkR 50 2 in
  whole_rate ra 24 /\ whole_rate rb 25 /\ nearest_even (23 * 1 * 1000) 24 958 /\ is_int ((3600 + 7200 + 2) * Z.max 24 25).
Proof. unfold whole_rate, nearest_even, is_int. cbn. repeat split; lia. Qed.

Theorem C09_add_needs_rates : forall a b, ~ has_rate a \/ ~ has_rate b -> time_add a b = Throw EProgramming.
Proof. exact add_needs_rates. Qed.
Print Assumptions C09_add_needs_rates.

(** C10.  The strict bound is refuted for both functions. *)
Theorem C10_scale_refuted : exists r k t f t',
  whole_rate r k /\ t_rate t = Some r /\ normalised_at r t /\ time_scale t f = Ok t' /\ t_frames t' = k.
Proof. exact scale_not_normalised. Qed.
Print Assumptions C10_scale_refuted.
Theorem C10_frames_at_refuted : exists t tr,
  t_rate t = Some tr /\ positive_rate tr /\ normalised_at tr t /\ frames_at t (mkR 25 1) = Ok 25.
Proof. exact frames_at_not_normalised. Qed.
Print Assumptions C10_frames_at_refuted.

(** What holds: never above the rate, and the result is the scaled instant up to half a frame, the rounding of
    the operand to milliseconds, and 5 microseconds. *)
Theorem C10_scale_partial : forall t r k f phi,
  t_rate t = Some r -> positive_rate r -> whole_rate r k -> is_int (num r) -> is_int (den r) ->
  normalised_at r t -> 0 <= t_seconds t -> is_int (t_seconds t) ->
  valid_binary 24 128 f = true -> is_finite_SF f = true -> SF2R radix2 f = phi -> (0 <= phi)%R ->
  (phi * (Q2R (instant_at r t) + / 2000) <= 2147483646)%R ->
  exists t', time_scale t f = Ok t' /\ t_rate t' = Some r /\ 0 <= t_seconds t' /\ 0 <= t_frames t' <= k /\
    (Rabs (Q2R (instant_at r t') - phi * Q2R (instant_at r t)) <= / (2 * IZR k) + phi / 2000 + / 200000)%R.
Proof. exact scale_close. Qed.
Print Assumptions C10_scale_partial.
Example C10_case : let f := d_lit 51 100 in let f := f_of_d f in
  valid_binary 24 128 f = true /\ is_finite_SF f = true /\ whole_rate (mkR 25 1) 25 /\ normalised_at (mkR 25 1) (mkT 1 24 (Some (mkR 25 1))).
Proof. cbv zeta. split; [vm_compute; reflexivity|]. split; [vm_compute; reflexivity|]. split; [split; [cbn; lia | reflexivity]|].
  split; [cbn; lia | now vm_compute]. Qed.

Theorem C10_frames_at_partial : forall t tr k,
  t_rate t = Some tr -> positive_rate tr -> normalised_at tr t -> is_int (num tr) -> is_int (den tr) -> 0 < k <= 1000000 ->
  exists z, frames_at t (mkR k 1) = Ok z /\ 0 <= z <= k.
Proof. exact frames_at_le_rate. Qed.
Print Assumptions C10_frames_at_partial.
Example C10_frames_at_case : positive_rate (mkR 24000 1001) /\ normalised_at (mkR 24000 1001) (mkT 0 23 None).
Proof. split; [split; reflexivity|]. split; [cbn; lia | now vm_compute]. Qed.

(** It is the rate, and not below it, exactly for times in the last half frame of a second. *)
Theorem C10_frames_at_as_is : forall t tr k,
  t_rate t = Some tr -> positive_rate tr -> normalised_at tr t -> is_int (num tr) -> is_int (den tr) -> 0 < k <= 1000000 ->
  exists z, frames_at t (mkR k 1) = Ok z /\ 0 <= z <= k /\ (z = k <-> last_half_frame k t).
Proof. exact frames_at_as_is. Qed.
Print Assumptions C10_frames_at_as_is.
Example C10_as_is_case : last_half_frame 25 (mkT 0 990 (Some (mkR 1000 1))) /\ ~ last_half_frame 25 (mkT 0 979 (Some (mkR 1000 1))).
Proof.
  split; [exists (mkR 1000 1); split; [reflexivity|left; reflexivity]|]. intros (tr & E & H). injection E as <-. cbn in H. destruct H as [H|[H _]]; discriminate H.
Qed.

Theorem C10_scale_errors : forall t f,
  (~ has_rate t -> time_scale t f = Throw EProgramming) /\
  (forall r, t_rate t = Some r -> den r = 0 -> time_scale t f = Throw EProgramming) /\
  (forall r, t_rate t = Some r -> is_int (num r) -> is_int (den r) -> den r <> 0 -> (forall k, ~ whole_rate r k) -> time_scale t f = Throw EProgramming).
Proof. exact scale_errors. Qed.
Print Assumptions C10_scale_errors.
Example C10_errors_case : is_int (num (mkR 24000 1001)) /\ den (mkR 24000 1001) <> 0 /\ forall k, ~ whole_rate (mkR 24000 1001) k.
Proof. unfold is_int, whole_rate. cbn [num den]. split; [lia|]. split; [lia|]. intros k [_ H]. lia. Qed.

(** C61 *)
Theorem C61_all_as_seconds : forall t r, t_rate t = Some r -> positive_rate r -> normalised_at r t ->
  is_int (num r) -> is_int (den r) -> 0 <= t_seconds t -> is_int (t_seconds t) ->
  exists x, all_as_seconds t = Ok x /\ is_finite_SF x = true /\
    (Rabs (SF2R radix2 x - Q2R (instant_at r t)) <= / 2000 + / 1000000)%R.
Proof. exact all_as_seconds_close. Qed.
Print Assumptions C61_all_as_seconds.
Example C61_case : positive_rate (mkR 24000 1001) /\ is_int (num (mkR 24000 1001)) /\ is_int 2147483647.
Proof. unfold positive_rate, is_int. cbn. lia. Qed.
