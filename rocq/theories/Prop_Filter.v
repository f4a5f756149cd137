(** The collection filter: C16. *)
From Coq Require Import Floats.SpecFloat.
From Verif Require Import Base M_Util Spec P_Float.

(** C16: exactly which lists are kept.  [valid_binary] says the density is a double. *)
Theorem C16_pass : forall params n u,
  is_u32 n -> is_u32 u -> valid_binary 53 1024 (p_density params) = true ->
  pass params n u = true
  <-> p_size params < n
      \/ 0 < n /\ exists D, dval (p_density params) = Some D
           /\ (u = 0 \/ exists Q, nearest n u Q /\ D < Q).
Proof. exact c16_pass. Qed.
Print Assumptions C16_pass.

(** ... and in terms of the exact quotient n / u: a list which is not longer than the size
    parameter is dropped if n / u <= density, and kept if some double above the density is <= n / u *)
Theorem C16_density : forall params n u D,
  0 < n -> is_u32 n -> 0 < u -> is_u32 u -> valid_binary 53 1024 (p_density params) = true ->
  dval (p_density params) = Some D -> n <= p_size params ->
  (n * 2 ^ 1074 <= D * u -> pass params n u = false)
  /\ (forall D', is_double D' -> D < D' -> D' * u <= n * 2 ^ 1074 -> pass params n u = true).
Proof. exact c16_density. Qed.
Print Assumptions C16_density.

(** with the default size, no density filters out anything but empty lists *)
Theorem C16_default_size : forall params n u,
  p_size params = 0 -> is_u32 n -> is_u32 u -> pass params n u = (0 <? n).
Proof. exact c16_size0. Qed.
Print Assumptions C16_default_size.

(** density 0.25 = 2^52 * 2^-54, size 1000; and the double 6004799503160661 * 2^-54 just below 1/3,
    to which 1/3 is rounded: the list with n = 1, last = 3 is dropped although 1/3 > density *)
Definition ex_quarter : parameters := mkParams (S754_finite false 4503599627370496 (-54)) 1000.
Definition ex_third : parameters := mkParams (S754_finite false 6004799503160661 (-54)) 1000.
Example C16_example :
  valid_binary 53 1024 (p_density ex_quarter) = true
  /\ dval (p_density ex_quarter) = Some (2 ^ 1072)
  /\ pass ex_quarter 25 100 = false /\ pass ex_quarter 26 100 = true /\ pass ex_quarter 1001 1000000 = true
  /\ pass ex_quarter 0 100 = false /\ pass ex_quarter 1 0 = true
  /\ valid_binary 53 1024 (p_density ex_third) = true
  /\ pass ex_third 1 3 = false
  /\ (exists D, dval (p_density ex_third) = Some D /\ D * 3 < 1 * 2 ^ 1074)
  /\ pass (mkParams S754_nan 1000) 26 100 = false /\ pass (mkParams (S754_infinity false) 0) 1 0 = true
  /\ pass default_params 1 4000000000 = true.
Proof.
  do 9 (split; [vm_compute; reflexivity|]).
  split.
  { exists (6004799503160661 * 2 ^ (-54 + 1074)). split; vm_compute; reflexivity. }
  do 2 (split; [vm_compute; reflexivity|]). vm_compute. reflexivity.
Qed.
