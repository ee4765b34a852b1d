(** Where positions are on the screen. *)
From Coq Require Import ZArith Reals Bool.
From Coq.Floats Require Import SpecFloat.
From Flocq Require Import Core BinarySingleNaN.
From Verif.Model Require Import Base Float Types.
Local Open Scope R_scope.

(** [f] is a finite float with value [x]. *)
Definition float_value (f : flt) (x : R) : Prop :=
  valid_binary 24 128 f = true /\ is_finite_SF f = true /\ SF2R radix2 f = x.

(** A vertical position gives offset [x] from reference [r]: a proportion of the screen if there is one,
    otherwise line / lines. *)
Definition offset (v : vpos) (r : vref) (x : R) : Prop :=
  v_ref v = Some r /\
  ((exists p, v_prop v = Some p /\ float_value p x) \/
   (v_prop v = None /\ exists l n, v_line v = Some l /\ v_lines v = Some n /\ n <> 0%Z /\
      (Z.abs l < 2 ^ 24)%Z /\ (Z.abs n < 2 ^ 24)%Z /\ x = IZR l / IZR n)).

(** The distance from the top of the screen of offset [x]. *)
Definition from_top (r : vref) (x : R) : R :=
  match r with
  | TOP_OF_SCREEN | TOP_OF_SUBTITLE => x
  | VERTICAL_CENTRE_OF_SCREEN => x + / 2
  | BOTTOM_OF_SCREEN => 1 - x
  end.

(** Positions given by proportion and reference; by line, number of lines and reference. *)
Definition proportional_position (v : vpos) : Prop :=
  exists r p x, v_ref v = Some r /\ v_prop v = Some p /\ float_value p x.
Definition line_position (v : vpos) : Prop :=
  exists r l n, v_ref v = Some r /\ v_line v = Some l /\ v_lines v = Some n /\ v_prop v = None.

(** Two positions give the same reference and the same proportion. *)
Definition same_proportion (a b : vpos) : Prop :=
  exists r p q x, v_ref a = Some r /\ v_ref b = Some r /\ v_prop a = Some p /\ v_prop b = Some q /\
    float_value p x /\ float_value q x.
Definition same_line (a b : vpos) : Prop :=
  exists r l n, v_ref a = Some r /\ v_ref b = Some r /\ v_line a = Some l /\ v_line b = Some l /\
    v_lines a = Some n /\ v_lines b = Some n.

(** The nearest float to a real number. *)
Definition nearest_float (x : R) : R := round radix2 (FLT_exp (-149) 24) ZnearestE x.

(** Every proportion that is set is a finite float. *)
Definition finite_proportion (v : vpos) : Prop := forall p, v_prop v = Some p -> exists x, float_value p x.

(** What operator== compares: the proportions if both have one; otherwise the lines, and the numbers of lines if
    both have one. *)
Definition same_vertical (a b : vpos) : Prop :=
  exists r, v_ref a = Some r /\ v_ref b = Some r /\
    match v_prop a, v_prop b with
    | Some p, Some q => exists x, float_value p x /\ float_value q x
    | _, _ => exists l, v_line a = Some l /\ v_line b = Some l /\
                (forall n m, v_lines a = Some n -> v_lines b = Some m -> n = m)
    end.

(** Equality of blocks, field by field; floats are compared by value. *)
Definition finite_float (f : flt) : Prop := exists x, float_value f x.
Definition same_float (f g : flt) : Prop := exists x, float_value f x /\ float_value g x.
Definition same_option {A} (R : A -> A -> Prop) (a b : option A) : Prop :=
  match a, b with None, None => True | Some x, Some y => R x y | _, _ => False end.
Definition finite_colour (c : colour) : Prop := finite_float (c_r c) /\ finite_float (c_g c) /\ finite_float (c_b c).
Definition same_colour (c d : colour) : Prop :=
  same_float (c_r c) (c_r d) /\ same_float (c_g c) (c_g d) /\ same_float (c_b c) (c_b d).
Definition finite_block (b : block) : Prop :=
  (forall f, fs_prop (b_font_size b) = Some f -> finite_float f) /\
  (forall c, b_effect_colour b = Some c -> finite_colour c) /\ finite_colour (b_colour b).
Definition same_block (a b : block) : Prop :=
  b_text a = b_text b /\ b_font a = b_font b /\
  same_option same_float (fs_prop (b_font_size a)) (fs_prop (b_font_size b)) /\
  fs_points (b_font_size a) = fs_points (b_font_size b) /\
  b_effect a = b_effect b /\ same_option same_colour (b_effect_colour a) (b_effect_colour b) /\
  same_colour (b_colour a) (b_colour b) /\ b_bold a = b_bold b /\ b_italic a = b_italic b /\ b_underline a = b_underline b.
