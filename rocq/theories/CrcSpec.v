(** CRC as polynomial division over GF(2); a polynomial is the number whose bits are its coefficients. *)
From Verif Require Import Base CrcModel.
Local Open Scope N_scope.

(** product of polynomials *)
Fixpoint pmul_pos (q : positive) (p : N) : N :=
  match q with
  | xH => p
  | xO q' => 2 * pmul_pos q' p
  | xI q' => N.lxor p (2 * pmul_pos q' p)
  end.
Definition pmul (q p : N) : N := match q with 0 => 0 | Npos q' => pmul_pos q' p end.

(** [r] is the remainder of [a] modulo the polynomial x^pw + ... : lower degree, and the difference is a multiple *)
Definition is_remainder (pw : nat) (P a r : N) : Prop :=
  r < 2 ^ N.of_nat pw /\ exists q, N.lxor a r = pmul q P.

(** number with the given bits, least significant first *)
Fixpoint num (l : list bool) : N := match l with [] => 0 | b :: l' => N.b2n b + 2 * num l' end.
(** polynomial of a CRC of width [length poly]: the leading coefficient is implicit *)
Definition poly_of (poly : list bool) : N := num poly + 2 ^ N.of_nat (length poly).

(** Message polynomial of the CRC of [bits] (first transmitted bit first) started with [init]:
    init * x^len + message * x^pw *)
Definition msg_poly (pw : nat) (init bits : list bool) : N :=
  N.lxor (num init * 2 ^ N.of_nat (length bits)) (num (rev bits) * 2 ^ N.of_nat pw).

(** bits of a message in the order of transmission: bytes in order, each byte MSB first, or LSB first with REFIN *)
Definition msg_bits (refin : bool) (bytes : list (list bool)) : list bool :=
  concat (map (fun b => if refin then b else rev b) bytes).

(** bytes of a word in the order of the message: lowest byte first unless the input is big endian *)
Definition word_bytes (bigendian : bool) (w : list (list bool)) : list (list bool) := if bigendian then rev w else w.

(** [v] is the CRC of the message: the remainder, reflected if REFOUT, xor XOROUT (bit by bit) *)
Definition is_crc (poly init xorout : list bool) (refin refout : bool) (bytes : list (list bool)) (v : list bool) : Prop :=
  exists r, length r = length poly /\
    is_remainder (length poly) (poly_of poly) (msg_poly (length poly) init (msg_bits refin bytes)) (num r) /\
    length v = length poly /\
    forall i, (i < length poly)%nat ->
      nth i v false = xorb (nth (if refout then length poly - 1 - i else i)%nat r false) (nth i xorout false).

(** * Frames of a masked input *)
(** number of valid bytes of a mask: ones from bit 0 on, then zeros *)
Definition mask_is (m : list bool) (k : nat) : Prop := m = repeat true k ++ repeat false (length m - k) /\ (k <= length m)%nat.
Definition ones (m : list bool) : nat := length (filter (fun b => b) m).
(** a valid word has a mask bit for each byte, and a contiguous, non empty mask *)
Definition good_in (i : crc_in) : Prop :=
  ci_vld i = true -> length (ci_mask i) = length (ci_bytes i) /\ exists k, mask_is (ci_mask i) (S k).
(** valid bytes of a cycle *)
Definition cyc_bytes (i : crc_in) : list (list bool) := if ci_vld i then firstn (ones (ci_mask i)) (ci_bytes i) else [].
(** the last valid word of [pre], if there is one, has dataIn.last *)
Definition at_frame_start (pre : list crc_in) : Prop :=
  forall a i b, pre = a ++ i :: b -> ci_vld i = true -> (forall j, In j b -> ci_vld j = false) -> ci_last i = true.

(** bytes of a cycle of an input without mask *)
Definition opt_bytes (be : bool) (i : option (list (list bool))) : list (list bool) :=
  match i with Some w => word_bytes be w | None => [] end.
(** every bit of the vector is the same *)
Definition uniform (l : list bool) : Prop := exists b, l = repeat b (length l).
