(** Saving the configuration to flash and loading it at start-up
    (stm32f4-discovery.c 904-943 and stm32f4-discovery.ld; gd32f4_init.c 216-246 and
    gd32f4.ld).

    Flash, trusted from the reference manuals: erasing a sector sets all its bits;
    programming a word can only clear bits.  Words are 32 bits at byte addresses that
    are multiples of 4.  The save is a list of erase and program operations in order, so
    that power may fail after any number of them. *)
Require Import ZArith List Bool.
From Verif Require Import Word.
Import ListNotations.
Open Scope Z_scope.

Definition flash : Type := Z -> Z.
(** A sector: first byte address and size in bytes. *)
Definition sector : Type := (Z * Z)%type.
Inductive fop : Type := Erase (s : sector) | Program (a w : Z).

Definition in_sector (s : sector) (a : Z) : bool := (fst s <=? a) && (a <? fst s + snd s).
Definition do_op (f : flash) (o : fop) : flash :=
  match o with
  | Erase s => fun a => if in_sector s a then W - 1 else f a
  | Program a w => fun b => if b =? a then Z.land (f b) w else f b
  end.
Definition do_ops (f : flash) (l : list fop) : flash := fold_left do_op l f.

(** The programming loops (stm32f4-discovery.c 936-939, gd32f4_init.c 239-242): one
    word after another from the load address on. *)
Fixpoint program_words (a : Z) (image : list Z) : list fop :=
  match image with [] => [] | w :: ws => Program a w :: program_words (a + 4) ws end.

(** platform_load_config (both platforms): copy [n] words from the load address. *)
Fixpoint load_words (f : flash) (a : Z) (n : nat) : list Z :=
  match n with O => [] | S n => f a :: load_words f (a + 4) n end.

(** stm32f4-discovery.ld: configrom, 48 KB from 0x08004000, three sectors of 16 KB. *)
Definition stm32_rom : Z := 134234112.
Definition stm32_sector (k : Z) : sector := (134217728 + 16384 * k, 16384).
(** stm32f4-discovery.c 927-935: the sectors erased; conf_bytes is the size of the image. *)
Definition stm32_n_sectors (conf_bytes : Z) : Z := (conf_bytes + 16385) / 16386.
Definition stm32_save (image : list Z) : list fop :=
  map (fun k => Erase (stm32_sector (1 + Z.of_nat k))) (seq 0 (Z.to_nat (stm32_n_sectors (4 * Z.of_nat (length image)))))
  ++ program_words stm32_rom image.

(** gd32f4.ld: configrom, 128 KB from 0x08060000; gd32f4_init.c 235-242: sector 7. *)
Definition gd32_rom : Z := 134610944.
Definition gd32_sector7 : sector := (134610944, 131072).
Definition gd32_save (image : list Z) : list fop := Erase gd32_sector7 :: program_words gd32_rom image.
