(** Specification of the pattern files, independent of the serializer's buffers. *)
From Verif Require Import Base Data.

(** word j of a filler: p = position of the filler in the stream of patterns,
    e = its number after the last event.  Zero, or the "magic" counters
    (low 16 bits of p, low 8 bits of e, low 8 bits of j). *)
Definition filler (magic : bool) (p e j : nat) : Z :=
  if magic then Z.of_nat p mod 65536 * 65536 + Z.of_nat e mod 256 * 256 + Z.of_nat j mod 256 else 0.

(** word j of pattern p: every event is followed by [nempty] fillers; the
    stream has [length events * (nempty + 1)] patterns and zeros after them *)
Definition npatterns (nempty : nat) (events : list (list Z)) : nat := (length events * (nempty + 1))%nat.
Definition pattern (nempty : nat) (magic : bool) (events : list (list Z)) (p j : nat) : Z :=
  let period := (nempty + 1)%nat in
  if (p <? npatterns nempty events)%nat
  then if (p mod period =? 0)%nat then nth j (nth (p / period) events []) 0
       else filler magic p (p mod period - 1) j
  else 0.

(** link w at clock f: nmux consecutive patterns share nmux clocks; each has
    nchann = MP7_NCHANN / nmux links, and its words go column by column *)
Definition muxed (nmux : nat) (pat : nat -> nat -> Z) (f w : nat) : Z :=
  let nchann := (MP7_NCHANN / nmux)%nat in
  pat (f / nmux * nmux + w / nchann)%nat (w mod nchann * nmux + f mod nmux)%nat.
(** the words on clock f and the line for it, for [nlinks] links *)
Definition clock (nmux nlinks : nat) (pat : nat -> nat -> Z) (f : nat) : list Z := map (muxed nmux pat f) (seq 0 nlinks).
Definition frame (nmux nlinks : nat) (pat : nat -> nat -> Z) (f : nat) : Z * list Z := (Z.of_nat f, clock nmux nlinks pat f).

(** number of links printed for a constructor argument (0 = default) *)
Definition links (nmux nlinks : nat) : nat := if (nlinks =? 0)%nat then (MP7_NCHANN / nmux)%nat else nlinks.

(** Events are at positions k*(nempty+1) of the stream; within a group of nmux
    patterns the highest position an event can have is nmux - gcd(nempty+1, nmux).
    [reach] is that position plus one: the number of pattern-wide link blocks
    that can carry event data. *)
Definition reach (nmux nempty : nat) : nat := (nmux - Nat.gcd (nempty + 1) nmux + 1)%nat.

(** legal constructor arguments *)
Definition mux_ok (nmux : nat) (nempty : Z) (nlinks : nat) : Prop :=
  (1 <= nmux)%nat /\ (MP7_NCHANN mod nmux = 0)%nat /\ (links nmux nlinks <= MP7_NCHANN)%nat /\ Z.abs nempty < 2 ^ 31.
(** events of MP7_NCHANN 32-bit words, few enough for the 32-bit frame counter *)
Definition event_ok (e : list Z) : Prop := length e = MP7_NCHANN /\ Forall (inU 32) e.
Definition few (nempty : Z) (events : list (list Z)) : Prop := Z.of_nat (npatterns (Z.abs_nat nempty) events) < 2 ^ 32.

(** CTP7: line i of the memory image for a history of (event, channels) calls *)
Definition ctp7_line (calls : list (list Z * nat)) (i : nat) : Z * list Z :=
  let '(e, n) := nth (i / 6) calls ([], 0%nat) in
  (Z.of_nat i, if (i mod 6 =? 0)%nat then firstn n e else repeat 0 n).
