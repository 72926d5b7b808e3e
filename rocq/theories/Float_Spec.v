(** Specification vocabulary for C60: decimal texts of floating-point values, as printf's %f, %e and %g write them. *)
From Verif Require Import Common Format_Model Format_Spec.

(** A finite value is n / d; [magnitude] is a floating-point number without its sign: m * 2^e. *)
Inductive magnitude := Finite (m e : Z) | Infinity | NotANumber.
Definition numerator (m e : Z) : Z := m * 2 ^ Z.max e 0.
Definition denominator (e : Z) : Z := 2 ^ Z.max (- e) 0.

(** [r] is the integer nearest to n / d, the even one of two. *)
Definition nearest_even (n d r : Z) : Prop := 2 * Z.abs (r * d - n) <= d /\ (2 * Z.abs (r * d - n) = d -> Z.Even r).
(** [r] is the integer nearest to (n / d) * 10^k. *)
Definition nearest_scaled (n d k r : Z) : Prop := nearest_even (n * 10 ^ Z.max k 0) (d * 10 ^ Z.max (- k) 0) r.
(** 10^x <= n / d *)
Definition at_least_pow10 (n d x : Z) : Prop := d * 10 ^ Z.max x 0 <= n * 10 ^ Z.max (- x) 0.

Definition decimal_digits (l : list Z) : Prop := Forall (digit_of 10 false) l.

(** %f: ip . fp with [p] digits after the point. *)
Definition fixed_digits (p : nat) (n d : Z) (ip fp : list Z) : Prop :=
  decimal_digits ip /\ decimal_digits fp /\ length fp = p /\ ip <> [] /\ (length ip = 1%nat \/ hd 0 ip <> 48) /\
  nearest_even (n * 10 ^ Z.of_nat p) d (positional_value 10 (ip ++ fp)).
(** %e: the digits [ds], one before the point and [p] after it, and the exponent [x]. *)
Definition scientific_digits (p : nat) (n d x : Z) (ds : list Z) : Prop :=
  decimal_digits ds /\ length ds = S p /\
  (n = 0 /\ x = 0 /\ positional_value 10 ds = 0 \/
   0 < n /\ exists x0 r, at_least_pow10 n d x0 /\ ~ at_least_pow10 n d (x0 + 1) /\ nearest_scaled n d (Z.of_nat p - x0) r /\
     (r < 10 ^ (Z.of_nat p + 1) /\ x = x0 /\ positional_value 10 ds = r \/
      r = 10 ^ (Z.of_nat p + 1) /\ x = x0 + 1 /\ positional_value 10 ds = 10 ^ Z.of_nat p)).
(** e+XX: a sign and at least two digits. *)
Definition exponent_text (x : Z) (s : list Z) : Prop :=
  exists ds, s = 101 :: (if x <? 0 then 45 else 43) :: (if Z.abs x <? 10 then [48] else []) ++ ds /\ positional 10 false (Z.abs x) ds.
(** The point is left out if no digit follows, except in the alternate form. *)
Definition point (alternate : bool) (fp : list Z) : list Z :=
  match fp with [] => if alternate then [46] else [] | _ => 46 :: fp end.
(** %g removes trailing zeros, except in the alternate form. *)
Definition without_zeros (alternate : bool) (fp fp' : list Z) : Prop :=
  if alternate then fp' = fp else exists k, fp = fp' ++ repeat 48 k /\ (fp' = [] \/ last fp' 0 <> 48).

Definition fixed_text (alternate : bool) (p : nat) (n d : Z) (s : list Z) : Prop :=
  exists ip fp, fixed_digits p n d ip fp /\ s = ip ++ point alternate fp.
Definition scientific_text (alternate : bool) (p : nat) (n d : Z) (s : list Z) : Prop :=
  exists x c fp ex, scientific_digits p n d x (c :: fp) /\ exponent_text x ex /\ s = c :: point alternate fp ++ ex.
(** %g: [p] significant digits (one, if p is 0), in the style of %f if the exponent of %e would be between -4 and p - 1. *)
Definition general_text (alternate : bool) (p : nat) (n d : Z) (s : list Z) : Prop :=
  let P := Nat.max 1 p in
  exists x c ds, scientific_digits (P - 1) n d x (c :: ds) /\
    (-4 <= x < Z.of_nat P /\ (exists ip fp fp', fixed_digits (Z.to_nat (Z.of_nat P - 1 - x)) n d ip fp /\ without_zeros alternate fp fp' /\ s = ip ++ point alternate fp') \/
     ~ -4 <= x < Z.of_nat P /\ (exists ds' ex, without_zeros alternate ds ds' /\ exponent_text x ex /\ s = c :: point alternate ds' ++ ex)).

(** What printf writes for a magnitude, with '#' if [alternate]. *)
Definition printf_text (t : ftype) (alternate : bool) (p : nat) (v : magnitude) (s : list Z) : Prop :=
  match v with
  | Infinity => s = [105; 110; 102] (* inf *)
  | NotANumber => s = [110; 97; 110] (* nan *)
  | Finite m e =>
      match t with
      | TFixed => fixed_text alternate p (numerator m e) (denominator e) s
      | TScientific => scientific_text alternate p (numerator m e) (denominator e) s
      | TGeneral => general_text alternate p (numerator m e) (denominator e) s
      | _ => False
      end
  end.
Definition decimal_type (t : ftype) : Prop := t = TFixed \/ t = TScientific \/ t = TGeneral.

Definition shown_sign (o : sign_option) (negative : bool) : list Z :=
  if negative then [45] else match o with SAlways => [43] | SNegativeOnlyWithPositivePadding => [32] | _ => [] end.
Definition in_case (c : fcase) (s : list Z) : list Z :=
  match c with CLower => s | CUpper => map (fun x => if (97 <=? x) && (x <=? 122) then x - 32 else x) s end.
