(** The external ADCs: the command sequences and the decoding of the responses
    (src/platforms/common/tlv2553_adc.h, ad7888_adc.h, max11632_adc.h) and the sampling
    interrupt (gd32f4_sensors.c 99-121, stm32f4-discovery.c 393-416). *)
Require Import ZArith List Bool.
From Verif Require Import Res Word F32 Sensors.
Import ListNotations.
Open Scope Z_scope.

(** ** TLV2553 *)
(** tlv2553_adc.h 7 *)
Definition tlv_input (x : Z) : Z := Z.lor (Z.shiftl x 12) 3072.
(** tlv2553_adc.h 24-35 *)
Definition tlv_sequence : list Z := map tlv_input
  [0; 1; 2;  0; 1; 3;  0; 1; 4;  0; 1; 5;  0; 1; 6;  0; 1; 7;  0; 1; 8;  0; 1; 9;  0; 1; 10;  0; 1; 11].
(** tlv2553_adc.h 40-43 *)
Definition tlv_raw (values : list Z) (position : Z) : res Z := v <- get values position ;; Ok (Z.shiftr v 4).
(** tlv2553_adc.h 48-74 *)
Definition tlv_pin (values : list Z) (pin : Z) : res Z :=
  match pin with
  | 2 => tlv_raw values 3
  | 3 => tlv_raw values 6
  | 4 => tlv_raw values 9
  | 5 => tlv_raw values 12
  | 6 => tlv_raw values 15
  | 7 => tlv_raw values 18
  | 8 => tlv_raw values 21
  | 9 => tlv_raw values 24
  | 10 => tlv_raw values 27
  | 11 => tlv_raw values 0
  | _ => Ok 0
  end.
(** tlv2553_adc.h 77-83 *)
Definition tlv_valid (values : list Z) : res bool :=
  self_test <- tlv_pin values 11 ;; Ok (negb ((self_test <? 2048 - 10) || (2048 + 10 <? self_test))).
(** tlv2553_adc.h 85-108: the samples of the two knock inputs. *)
Fixpoint collect {A} (f : Z -> res A) (i : Z) (n : nat) : res (list A) :=
  match n with
  | O => Ok []
  | S n => a <- f i ;; l <- collect f (i + 1) n ;; Ok (a :: l)
  end.
Definition tlv_knock (values : list Z) : res (list f32 * list f32) :=
  k1 <- collect (fun i => v <- tlv_raw values (i * 3 + 1) ;; Ok (fdiv (f_of_Z v) (f_of_Z 4096))) 0 10 ;;
  k2 <- collect (fun i => v <- tlv_raw values (i * 3 + 2) ;; Ok (fdiv (f_of_Z v) (f_of_Z 4096))) 0 10 ;;
  Ok (k1, k2).

(** ** AD7888 *)
(** ad7888_adc.h 7 *)
Definition ad_input (x : Z) : Z := Z.lor (Z.shiftl x 11) 1024.
(** ad7888_adc.h 14-24 *)
Definition ad_sequence : list Z := map ad_input [0; 1; 2; 3; 4; 5; 6; 7; 0].
(** ad7888_adc.h 29-32 *)
Definition ad_raw (values : list Z) (position : Z) : res Z := v <- get values position ;; Ok (Z.land v 4095).
(** ad7888_adc.h 36-57 *)
Definition ad_pin (values : list Z) (pin : Z) : res Z :=
  match pin with
  | 0 => ad_raw values 1
  | 1 => ad_raw values 2
  | 2 => ad_raw values 3
  | 3 => ad_raw values 4
  | 4 => ad_raw values 5
  | 5 => ad_raw values 6
  | 6 => ad_raw values 7
  | 7 => ad_raw values 8
  | _ => Ok 0
  end.

(** ** MAX11632 *)
(** max11632_adc.h 7-8 *)
Definition max_setup : Z := 29696.
Definition max_input (x : Z) : Z := Z.lor 34304 (Z.shiftl x 11).
(** max11632_adc.h 15-21 *)
Definition max_sequence : list Z :=
  [max_setup] ++ map max_input [2; 3; 0; 1; 4; 5; 6; 7; 0; 1; 8; 9; 10; 11; 0; 1; 12; 13; 14; 15; 0; 1] ++ [4096].
(** max11632_adc.h 23-28 *)
Definition max_raw (values : list Z) (position : Z) : res Z :=
  first <- get values position ;;
  second <- get values (position + 1) ;;
  Ok (Z.lor (Z.shiftl (Z.land first 15) 8) (Z.shiftr second 8)).
(** max11632_adc.h 30-64 *)
Definition max_pin (values : list Z) (pin : Z) : res Z :=
  match pin with
  | 2 => max_raw values 1
  | 3 => max_raw values 2
  | 4 => max_raw values 5
  | 5 => max_raw values 6
  | 6 => max_raw values 7
  | 7 => max_raw values 8
  | 8 => max_raw values 11
  | 9 => max_raw values 12
  | 10 => max_raw values 13
  | 11 => max_raw values 14
  | 12 => max_raw values 17
  | 13 => max_raw values 18
  | 14 => max_raw values 19
  | 15 => max_raw values 20
  | _ => Ok 0
  end.

(** ** The interrupt when a set of responses is complete
    (gd32f4_sensors.c 99-121; stm32f4-discovery.c 393-416 is the same without the knock
    inputs): the buffer that the DMA does not write now is decoded.  [target] is
    dma_using_memory_get, [b0] and [b1] are the two halves of spi_rx_buffer. *)
Definition adc_interrupt (pin : list Z -> Z -> res Z) (valid : list Z -> res bool)
    (now target : Z) (b0 b1 : list Z) : res adc_update :=
  let sequence := if target =? 0 then b1 else b0 in
  ok <- valid sequence ;;
  vs <- collect (fun i => v <- pin sequence i ;; Ok (fdiv (f_of_Z (w32 (5 * v))) (f_of_Z 4096))) 0 16 ;;
  Ok (AdcUpdate now ok vs).
