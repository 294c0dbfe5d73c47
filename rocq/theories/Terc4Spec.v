(** Specification vocabulary for HDMI periods (HDMI 1.3, section 5.2). *)
From Coq Require Import ZArith List Bool.
From Verif Require Import Hdl TmdsSpec.
Import ListNotations.
Open Scope Z_scope.

(** Bits are written most significant first, as in the HDMI tables. *)
Definition msb (l : list Z) : Z := fold_left (fun a b => 2 * a + b) l 0.

(** HDMI 1.3 table 5-5: video guard band words of the three channels. *)
Definition video_guard (ch : nat) : Z :=
  match ch with
  | 1%nat => msb [0;1;0;0;1;1;0;0;1;1]
  | _ => msb [1;0;1;1;0;0;1;1;0;0]
  end.

(** HDMI 1.3 table 5-6: data island guard band of channels 1 and 2. *)
Definition data_guard : Z := msb [0;1;0;0;1;1;0;0;1;1].

(** HDMI 1.3 section 5.4.3: TERC4 coding of a nibble. *)
Definition terc4 (d : Z) : Z :=
  match d with
  | 0 => msb [1;0;1;0;0;1;1;1;0;0]
  | 1 => msb [1;0;0;1;1;0;0;0;1;1]
  | 2 => msb [1;0;1;1;1;0;0;1;0;0]
  | 3 => msb [1;0;1;1;1;0;0;0;1;0]
  | 4 => msb [0;1;0;1;1;1;0;0;0;1]
  | 5 => msb [0;1;0;0;0;1;1;1;1;0]
  | 6 => msb [0;1;1;0;0;0;1;1;1;0]
  | 7 => msb [0;1;0;0;1;1;1;1;0;0]
  | 8 => msb [1;0;1;1;0;0;1;1;0;0]
  | 9 => msb [0;1;0;0;1;1;1;0;0;1]
  | 10 => msb [0;1;1;0;0;1;1;1;0;0]
  | 11 => msb [1;0;1;1;0;0;0;1;1;0]
  | 12 => msb [1;0;1;0;0;0;1;1;1;0]
  | 13 => msb [1;0;0;1;1;1;0;0;0;1]
  | 14 => msb [0;1;0;1;1;0;0;0;1;1]
  | _ => msb [1;0;1;1;0;0;0;0;1;1]
  end.

(** A received stream: one ten-bit word per channel and clock, with the valid
    flag of the channel synchroniser. *)
Record rxs := { rx_valid : nat -> bool; rx_word : nat -> nat -> Z (* channel, clock *) }.

(** All three channels carry the video guard band in clock [t]. *)
Definition is_video_guard (r : rxs) (t : nat) : Prop :=
  rx_valid r t = true /\ forall ch, (ch < 3)%nat -> rx_word r ch t = video_guard ch.

(** Some channel carries a control word in clock [t]. *)
Definition is_control (r : rxs) (t : nat) : Prop :=
  rx_valid r t = true /\ exists ch, (ch < 3)%nat /\ legal_control (rx_word r ch t).

(** Channels 1 and 2 carry the data island guard band in clock [t]. *)
Definition is_data_guard (r : rxs) (t : nat) : Prop :=
  rx_valid r t = true /\ rx_word r 1 t = data_guard /\ rx_word r 2 t = data_guard.

(** Channels 1 and 2 carry the preamble CTL0..CTL3 = [c1],[c2] in clock [t]. *)
Definition is_preamble (r : rxs) (c1 c2 : Z) (t : nat) : Prop :=
  rx_valid r t = true /\ (forall ch, (ch < 3)%nat -> legal_control (rx_word r ch t)) /\
  rx_word r 1 t = of_bits (dvi_control c1) /\ rx_word r 2 t = of_bits (dvi_control c2).

(** All three channels carry TERC4 words in clock [t]. *)
Definition is_packet (r : rxs) (t : nat) : Prop :=
  rx_valid r t = true /\ forall ch, (ch < 3)%nat -> exists d, 0 <= d < 16 /\ rx_word r ch t = terc4 d.

(** Nibble of the last TERC4 word among [w 0 .. w (n-1)]; 0 if there is none. *)
Fixpoint last_nibble (w : nat -> Z) (n : nat) : Z :=
  match n with
  | O => 0
  | S m => match find (fun d => w m =? terc4 d) (zrange 0 16) with
           | Some d => d
           | None => last_nibble w m
           end
  end.
