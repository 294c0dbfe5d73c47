(** Specification vocabulary for an HDMI source: what it sends in each pixel clock
    (HDMI 1.3, section 5.2). *)
From Coq Require Import ZArith List Bool.
From Verif Require Import Hdl TmdsSpec Terc4Spec.
Import ListNotations.
Open Scope Z_scope.

(** One pixel clock of the source: a control character on each channel (channel 0 carries
    hsync and vsync, channels 1 and 2 the preambles), a video guard band, a pixel, or a data
    island with its leading and trailing guard bands, in which channel 0 carries a nibble. *)
Inductive slot :=
| Ctl (c0 c1 c2 : Z)
| VGuard
| Pix (r g b : Z)
| Lead (d : Z)
| Packet (d0 d1 d2 : Z)
| Trail (d : Z).

Definition is_pix (s : slot) : bool := match s with Pix _ _ _ => true | _ => false end.
Definition is_ctl (s : slot) : bool := match s with Ctl _ _ _ => true | _ => false end.

(** [w] is a word that channel [k] may carry in such a clock; the running disparity of the
    pixel coding is left open. *)
Definition sends (s : slot) (k : nat) (w : Z) : Prop :=
  match s with
  | Ctl c0 c1 c2 => let c := nth k [c0; c1; c2] 0 in 0 <= c < 4 /\ w = of_bits (dvi_control c)
  | VGuard => w = video_guard k
  | Pix r g b => let d := nth k [b; g; r] 0 in 0 <= d < 256 /\ exists cnt, w = of_bits (fst (dvi_pixel d cnt))
  | Packet d0 d1 d2 => let d := nth k [d0; d1; d2] 0 in 0 <= d < 16 /\ w = terc4 d
  | Lead d | Trail d => match k with O => 0 <= d < 16 /\ w = terc4 d | _ => w = data_guard end
  end.

(** Order of the periods.  Preambles are not required here. *)
Definition follows (a b : slot) : Prop :=
  match a, b with
  | Ctl _ _ _, (Ctl _ _ _ | VGuard | Lead _) => True
  | VGuard, (VGuard | Pix _ _ _) => True
  | Pix _ _ _, (Pix _ _ _ | Ctl _ _ _) => True
  | Lead _, (Lead _ | Packet _ _ _) => True
  | Packet _ _ _, (Packet _ _ _ | Trail _) => True
  | Trail _, (Trail _ | Ctl _ _ _) => True
  | _, _ => False
  end.

(** A source: [Q n] is what it sends in clock [n], [W k n] the word on channel [k].  The first
    pixel of a line is not coded by the three guard band words (C16 shows what happens then). *)
Record hdmi_source (Q : nat -> slot) (W : nat -> nat -> Z) : Prop := {
  src_words : forall n k, (k < 3)%nat -> sends (Q n) k (W k n);
  src_order : forall n, follows (Q n) (Q (n + 1)%nat);
  src_first : forall n, Q n = VGuard -> is_pix (Q (n + 1)%nat) = true ->
    exists k, (k < 3)%nat /\ W k (n + 1)%nat <> video_guard k
}.

(** The last clock up to [n] with control characters (0 if there is none). *)
Fixpoint last_ctl (Q : nat -> slot) (n : nat) : nat :=
  match n with
  | O => O
  | S m => if is_ctl (Q n) then n else last_ctl Q m
  end.

(** The byte that the DVI decoding rule makes of a control character. *)
Definition ctl_byte (c : Z) : Z := of_bits (dvi_decode (dvi_control c)).

(** Colours that a pixel or a control character decodes to: red, green, blue. *)
Definition colours (s : slot) : Z * Z * Z :=
  match s with
  | Pix r g b => (r, g, b)
  | Ctl c0 c1 c2 => (ctl_byte c2, ctl_byte c1, ctl_byte c0)
  | _ => (0, 0, 0)
  end.

(** Data islands, guard bands included; the clocks with packets in them. *)
Definition in_island (s : slot) : bool := match s with Lead _ | Packet _ _ _ | Trail _ => true | _ => false end.
Definition is_packet (s : slot) : bool := match s with Packet _ _ _ => true | _ => false end.
(** A character of the data island preamble (HDMI 1.3, 5.2.1.1). *)
Definition preamble (s : slot) : bool := match s with Ctl _ c1 c2 => (c1 =? 1) && (c2 =? 1) | _ => false end.
(** Nibble of channel [k] in a packet. *)
Definition nibble (s : slot) (k : nat) : Z := match s with Packet d0 d1 d2 => nth k [d0; d1; d2] 0 | _ => 0 end.
