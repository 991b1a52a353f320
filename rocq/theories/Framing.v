(** Request framing of the console: the receive buffer of src/console.c, from the
    bytes a platform's console_read delivers to the requests that are processed.

    The CBOR library (tinycbor, not part of the repository's source) is a parameter:
    [starts_map b] is whether cbor_parser_init on the bytes [b] succeeds and the
    value is a map, and [validate b] is the outcome of cbor_value_validate_basic
    followed by cbor_value_advance / cbor_value_get_next_byte.  CborGrammar.v gives
    an instance. *)
Require Import ZArith List Bool.
Require Import Verif.Res Verif.Word Verif.F32.
Import ListNotations.
Open Scope Z_scope.

Definition len (b : list Z) : Z := Z.of_nat (length b).

(** Outcomes of cbor_value_validate_basic that src/console.c 349-379 tells apart:
    a complete value and its length in bytes (CborNoError, CborErrorGarbageAtEnd),
    a truncated one (CborErrorAdvancePastEOF, CborErrorUnexpectedEOF), any other
    error. *)
Inductive verdict : Type :=
| Complete (n : Z)
| Incomplete
| Invalid.

Record parser : Type := Parser {
  starts_map : list Z -> bool;
  validate : list Z -> verdict;
}.

(** [rx_buffer[16384]], src/console.c 307. *)
Definition RX_SIZE : Z := 16384.

(** src/console.c 307-309: rx_buffer and rx_buffer_size (the list holds the first
    rx_buffer_size bytes of the array; the rest is never read), rx_start_time.
    [rx_k] counts the calls of current_time(), so that each may return a different
    time; [rx_in] is the input the platform has not delivered yet. *)
Record rxs : Type := Rx {
  rx_buf : list Z;
  rx_start : Z;
  rx_k : nat;
  rx_in : list Z;
}.

(** src/console.c 309: all static variables start as zero. *)
Definition rx_init (input : list Z) : rxs := Rx [] 0 0 input.

(** console_read(buf, max) of any platform: it stores some number of the bytes that
    come next, at most [max], and returns that number.  [want] is the platform's
    choice.  (hosted.c 137-144: at most 64; stm32f4-discovery.c 942-950: what the
    USB interrupt has queued; gd32f4_usb.c 452-468: one packet.) *)
Definition console_read (want max : Z) (input : list Z) : list Z * list Z :=
  let n := Z.to_nat (Z.max 0 (Z.min (Z.min want max) (len input))) in
  (firstn n input, skipn n input).

(** src/console.c 311-315 console_shift_rx_buffer.  The C subtraction is on size_t:
    an amount above the size makes the memmove run far out of the array. *)
Definition console_shift_rx_buffer (nd : bool) (amt : Z) (buf : list Z) : res (list Z) :=
  _ <- c_assert nd (amt <=? len buf) ;;
  if len buf <? amt then Err OutOfBounds else Ok (skipn (Z.to_nat amt) buf).

Section Framing.
Variable p : parser.
Variable nd : bool.            (* built with -DNDEBUG *)
Variable clock : nat -> Z.     (* what the k-th call of current_time() returns *)

(** src/console.c 337-353, the do loop: drop bytes until a map starts.  The buffer
    shrinks by console_shift_rx_buffer(1), so the recursion is on the buffer. *)
Fixpoint skip_to_map (buf : list Z) (start : Z) (k : nat) : list Z * Z * nat :=
  match buf with
  | [] => ([], start, k)
  | _ :: rest =>
      if starts_map p buf then (buf, start, k)
      else skip_to_map rest (clock k) (S k)
  end.

(** src/console.c 317-382 console_try_read; the result is the length of the request
    at the start of the buffer, or 0. *)
Definition console_try_read (want : Z) (s : rxs) : res (Z * rxs) :=
  let remaining := RX_SIZE - len (rx_buf s) in
  let '(start, k) :=
    if len (rx_buf s) =? 0 then (clock (rx_k s), S (rx_k s)) else (rx_start s, rx_k s) in
  let '(got, rest) := console_read want remaining (rx_in s) in
  let buf := rx_buf s ++ got in
  if RX_SIZE <? len buf then Err OutOfBounds
  else if len buf =? 0 then Ok (0, Rx buf start k rest)
  else
    let '(buf, start, k) := skip_to_map buf start k in
    if len buf =? 0 then Ok (0, Rx buf start k rest)
    else
      match validate p buf with
      | Complete n => Ok (n, Rx buf start k rest)
      | Incomplete =>
          limit <- time_from_us 5000000 ;;
          let buf := if limit <? w32 (clock k - start) then [] else buf in
          let buf := if len buf =? RX_SIZE then [] else buf in
          Ok (0, Rx buf start (S k) rest)
      | Invalid => Ok (0, Rx [] start k rest)
      end.

(** src/console.c 1595-1600, the first part of console_process: take a request out
    of the buffer, if there is one, and process it.  The result is the bytes handed
    to console_process_request_raw ([] when there is no request). *)
Definition console_poll (want : Z) (s : rxs) : res (list Z * rxs) :=
  '(n, s1) <- console_try_read want s ;;
  if n =? 0 then Ok ([], s1)
  else
    if len (rx_buf s1) <? n then Err OutOfBounds
    else
      buf <- console_shift_rx_buffer nd n (rx_buf s1) ;;
      Ok (firstn (Z.to_nat n) (rx_buf s1), Rx buf (rx_start s1) (rx_k s1) (rx_in s1)).

(** The main loop (src/viaems.c main: console_process in a loop), console part only:
    one poll for each element of [wants].  The result lists the requests processed,
    in order. *)
Fixpoint polls (wants : list Z) (s : rxs) : res (list (list Z) * rxs) :=
  match wants with
  | [] => Ok ([], s)
  | w :: ws =>
      '(m, s1) <- console_poll w s ;;
      '(ms, s2) <- polls ws s1 ;;
      Ok (match m with [] => ms | _ => m :: ms end, s2)
  end.
End Framing.

(** src/console.c 293-305 console_write_full: repeat console_write on what is left
    until nothing is left.  [takes] are the numbers of bytes the platform accepts
    each time (it accepts at most what it is offered); the loop has not ended when
    [takes] runs out, which is reported as [None].  The result is the bytes sent and
    the unused part of [takes]. *)
Fixpoint console_write_full (takes : list Z) (buf : list Z) : option (list Z * list Z) :=
  match buf with
  | [] => Some ([], takes)
  | _ =>
      match takes with
      | [] => None
      | w :: ws =>
          let n := Z.to_nat (Z.max 0 (Z.min w (len buf))) in
          match console_write_full ws (skipn n buf) with
          | Some (sent, unused) => Some (firstn n buf ++ sent, unused)
          | None => None
          end
      end
  end.

(** The USB receive path of the gd32f4 platform, src/platforms/gd32f4/gd32f4_usb.c:
    rxbuffer[64] with rx_len, state.pending_read, and whether the OUT endpoint has
    been armed by usbd_ep_recev and not yet answered. *)
Record usb : Type := Usb {
  u_buf : list Z;
  u_pending : bool;
  u_armed : bool;
}.

Definition usb_init : usb := Usb [] false false.

(** gd32f4_usb.c 446-450 cdc_acm_out: the interrupt for a packet of at most 64 bytes.
    The controller accepts a packet only while the endpoint is armed. *)
Definition usb_packet (pkt : list Z) (u : usb) : option usb :=
  if u_armed u && (len pkt <=? 64) then Some (Usb pkt true false) else None.

(** gd32f4_usb.c 452-468 console_read.  [mid] is a packet whose interrupt comes
    between the test of pending_read and the call of usbd_ep_recev. *)
Definition usb_read (nd : bool) (max : Z) (mid : option (list Z)) (u : usb)
  : res (list Z * usb) :=
  if u_pending u then
    _ <- c_assert nd (len (u_buf u) <=? max) ;;
    if max <? len (u_buf u) then Err OutOfBounds
    else Ok (u_buf u, Usb (u_buf u) false (u_armed u))
  else
    let u := match mid with
             | Some pkt => match usb_packet pkt u with Some u' => u' | None => u end
             | None => u
             end in
    Ok ([], if 64 <=? max then Usb (u_buf u) (u_pending u) true else u).
