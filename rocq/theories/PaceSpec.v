(** What C91 speaks about: the conditions of C90 with the speed replaced by the time between teeth. *)
Require Import ZArith Reals List Bool.
From Verif Require Import Res Word F32 F32Flocq Arr Outputs Callbacks Decoder DecoderSafe Calc System SafeSpec.
Import ListNotations.
Open Scope Z_scope.

(** A tooth comes at most 600000 ticks (150 ms) per degree of the tooth distance after the tooth before it, unless the
    decoder has dropped its history (it does so when it loses the position): the crank turns at 1.2 RPM or more, at the gap
    at 2.3 RPM or more. *)
Definition paced (c : dcfg) (d : dec) (n t : Z) : Prop :=
  is_tooth c n = true -> 0 < dd_cur d -> forall u, get (dd_times d) 0 = Ok u -> (IZR ((t - u) mod 2 ^ 32) <= 600000 * R_ (dc_dpt c))%R.

(** As [may], but nothing is said about the speeds the firmware calculates. The tooth distance is only changed while the
    decoder has no teeth in its history. *)
Definition pulse_paced (w : fw) (n t : Z) : Prop := pulse_ok (w_dc w) (w_dec w) n t /\ paced (w_dc w) (w_dec w) n t.
Definition may_paced (w : fw) (e : fev) : Prop :=
  match e with
  | FTrigger n t => pulse_paced w n t
  | FTimer => 0 < cb_n (w_cbs w) /\
      (get (cb_arr (w_cbs w)) 0 = Ok TEST_CB -> w_simrpm w <> 0 -> dc_num (w_dc w) <= 36000 /\ forall t, get (cb_time (w_cbs w)) TEST_CB = Ok t -> pulse_paced w (test_input w) t)
  | FDecoderConfig c => may w e /\ missing c = true /\ (dc_dpt c = dc_dpt (w_dc w) \/ dd_cur (w_dec w) = 0)
  | _ => may w e
  end.
Fixpoint sound_paced (env : nat -> Z * list Z) (nd : bool) (w : fw) (l : list fev) : Prop :=
  match l with
  | [] => True
  | e :: r => may_paced w e /\ match fstep env nd w e with Ok w' => sound_paced env nd w' r | Err _ => True end
  end.
