(** The CRC configurations of hwtLib/logic/crcPoly.py: POLY, WIDTH, INIT, REFIN, REFOUT, XOROUT (the defaults are those
    of CRC_POLY, crcPoly.py:22-31).  Generated from the source text. *)
From Verif Require Import Base CrcModel.

(** word_t.from_py, get_bit: the lowest [w] bits, crcComb.py:50-61, 77-79 *)
Definition nbits (w : nat) (v : N) : list bool := map (fun i => N.testbit v (N.of_nat i)) (seq 0 w).
(** CrcComb.setConfig, crcComb.py:52-62; IN_IS_BIGENDIAN is a separate parameter *)
Definition config (poly : N) (w : nat) (init : N) (refin refout : bool) (xorout : N) (be : bool) : crc_cfg :=
  mk_cfg (nbits w poly) (nbits w init) refin refout (nbits w xorout) be.

Definition catalogue : list (bool -> crc_cfg) := [
  (* CRC_1, crcPoly.py:34-39 *) config 1 1 0 false false 0;
  (* CRC_3_GSM, crcPoly.py:42-49 *) config 3 3 0 false false 7;
  (* CRC3_ROHC, crcPoly.py:52-60 *) config 3 3 7 true true 0;
  (* CRC_4_ITU, crcPoly.py:63-72 *) config 3 4 0 true true 0;
  (* CRC_5_EPC, crcPoly.py:75-82 *) config 9 5 0 false false 0;
  (* CRC_5_ITU, crcPoly.py:85-90 *) config 21 5 0 false false 0;
  (* CRC_5_USB, crcPoly.py:93-104 *) config 5 5 31 true true 31;
  (* CRC_6_CDMA2000_A, crcPoly.py:107-110 *) config 39 6 0 false false 0;
  (* CRC_6_CDMA2000_B, crcPoly.py:113-116 *) config 7 6 0 false false 0;
  (* CRC_6_DARC, crcPoly.py:119-122 *) config 25 6 0 false false 0;
  (* CRC_6_GSM, crcPoly.py:125-128 *) config 47 6 0 false false 0;
  (* CRC_6_ITU, crcPoly.py:131-134 *) config 3 6 0 false false 0;
  (* CRC_7, crcPoly.py:137-140 *) config 9 7 0 false false 0;
  (* CRC_7_MVB, crcPoly.py:143-146 *) config 101 7 0 false false 0;
  (* CRC_8, crcPoly.py:149-152 *) config 213 8 0 false false 0;
  (* CRC_8_AUTOSAR, crcPoly.py:155-158 *) config 47 8 0 false false 0;
  (* CRC_8_Bluetooth, crcPoly.py:161-164 *) config 167 8 0 false false 0;
  (* CRC_8_CCITT, crcPoly.py:167-172 *) config 7 8 0 false false 0;
  (* CRC_8_Dallas_Maxim, crcPoly.py:175-178 *) config 49 8 0 false false 0;
  (* CRC_8_DARC, crcPoly.py:181-184 *) config 57 8 0 false false 0;
  (* CRC_8_GSM_B, crcPoly.py:187-190 *) config 73 8 0 false false 0;
  (* CRC_8_SAE_J1850, crcPoly.py:193-196 *) config 29 8 0 false false 0;
  (* CRC_8_WCDMA, crcPoly.py:199-207 *) config 155 8 0 true true 0;
  (* CRC_10, crcPoly.py:210-213 *) config 563 10 0 false false 0;
  (* CRC_10_CDMA2000, crcPoly.py:216-219 *) config 985 10 0 false false 0;
  (* CRC_10_GSM, crcPoly.py:222-225 *) config 373 10 0 false false 0;
  (* CRC_11, crcPoly.py:228-231 *) config 901 11 0 false false 0;
  (* CRC_12, crcPoly.py:234-237 *) config 2063 12 0 false false 0;
  (* CRC_12_CDMA2000, crcPoly.py:240-243 *) config 3859 12 0 false false 0;
  (* CRC_12_GSM, crcPoly.py:246-249 *) config 3377 12 0 false false 0;
  (* CRC_13_BBC, crcPoly.py:252-255 *) config 7413 13 0 false false 0;
  (* CRC_14_DARC, crcPoly.py:258-261 *) config 2053 14 0 false false 0;
  (* CRC_14_GSM, crcPoly.py:264-267 *) config 8237 14 0 false false 0;
  (* CRC_15_CAN, crcPoly.py:270-272 *) config 17817 15 0 false false 0;
  (* CRC_15_MPT1327, crcPoly.py:275-277 *) config 26645 15 0 false false 0;
  (* CRC_16_Chakravarty, crcPoly.py:280-283 *) config 12053 16 0 false false 0;
  (* CRC_16_ARINC, crcPoly.py:286-289 *) config 41003 16 0 false false 0;
  (* CRC_16_CCITT, crcPoly.py:292-299 *) config 4129 16 65535 false false 0;
  (* CRC_16_CDMA2000, crcPoly.py:302-305 *) config 51303 16 0 false false 0;
  (* CRC_16_DECT, crcPoly.py:308-311 *) config 1417 16 0 false false 0;
  (* CRC_16_T10_DIF, crcPoly.py:314-317 *) config 35767 16 0 false false 0;
  (* CRC_16_DNP, crcPoly.py:320-323 *) config 15717 16 0 false false 0;
  (* CRC_16_IBM, crcPoly.py:326-334 *) config 32773 16 0 true true 0;
  (* CRC_16_USB, crcPoly.py:336-344 *) config 32773 16 65535 true true 65535;
  (* CRC_16_OpenSafety_A, crcPoly.py:346-349 *) config 22837 16 0 false false 0;
  (* CRC_16_OpenSafety_B, crcPoly.py:352-355 *) config 30043 16 0 false false 0;
  (* CRC_16_Profibus, crcPoly.py:358-361 *) config 7631 16 0 false false 0;
  (* CRC_17_CAN, crcPoly.py:364-367 *) config 92251 17 0 false false 0;
  (* CRC_21_CAN, crcPoly.py:370-373 *) config 1058969 21 0 false false 0;
  (* CRC_24, crcPoly.py:376-379 *) config 6122955 24 0 false false 0;
  (* CRC_24_Radix_64, crcPoly.py:382-385 *) config 8801531 24 0 false false 0;
  (* CRC_30, crcPoly.py:388-391 *) config 540064199 30 0 false false 0;
  (* CRC_32, crcPoly.py:394-405 *) config 79764919 32 4294967295 true true 4294967295;
  (* CRC_32C, crcPoly.py:408-417 *) config 517762881 32 4294967295 true true 4294967295;
  (* CRC_32K, crcPoly.py:420-423 *) config 1947962583 32 0 false false 0;
  (* CRC_32K_2, crcPoly.py:426-429 *) config 844641433 32 0 false false 0;
  (* CRC_32Q, crcPoly.py:432-435 *) config 2168537515 32 0 false false 0;
  (* CRC_40_GSM, crcPoly.py:438-441 *) config 75628553 40 0 false false 0;
  (* CRC_64_ECMA, crcPoly.py:444-447 *) config 4823603603198064275 64 0 false false 0;
  (* CRC_64_ISO, crcPoly.py:450-453 *) config 27 64 0 false false 0
].
