(** * Every case of test/pack.cpp, evaluated in the model of pack

    Generated by tools/packtests.py.  The few cases with 4-bit chunks are left out: the model covers
    whole octets only.  These are tests of the transcription, not theorems about
    all inputs. *)
From Coq Require Import NArith List.
From Verif Require Import SpecStream MPack.
Import ListNotations.

(** test/pack.cpp:44. *)
Example l44_bubb_to_bubb_1 : pack BOBB BOBB 8 16 [0x12; 0x34; 0x56; 0x78]%N = [0x1234; 0x5678]%N.
Proof. vm_compute. reflexivity. Qed.

(** test/pack.cpp:54. *)
Example l54_bubb_to_bubb_2 : pack BOBB BOBB 16 32 [0x1234; 0x5678; 0x90ab; 0xcdef]%N = [0x12345678; 0x90abcdef]%N.
Proof. vm_compute. reflexivity. Qed.

(** test/pack.cpp:64. *)
Example l64_bubb_to_bulb_1 : pack BOBB BOLB 8 32 [0x12; 0x34; 0x56; 0x78]%N = [0x482c6a1e]%N.
Proof. vm_compute. reflexivity. Qed.

(** test/pack.cpp:74. *)
Example l74_bubb_to_bulb_2 : pack BOBB BOLB 16 32 [0x1234; 0x5678; 0x90ab; 0xcdef]%N = [0x482c6a1e; 0x09d5b3f7]%N.
Proof. vm_compute. reflexivity. Qed.

(** test/pack.cpp:84. *)
Example l84_bubb_to_lubb_1 : pack BOBB LOBB 8 64 [0x12; 0x34; 0x56; 0x78; 0x90; 0xab; 0xcd; 0xef]%N = [0xefcdab9078563412]%N.
Proof. vm_compute. reflexivity. Qed.

(** test/pack.cpp:94. *)
Example l94_bubb_to_lubb_2 : pack BOBB LOBB 16 32 [0x1234; 0x5678; 0x90ab; 0xcdef]%N = [0x78563412; 0xefcdab90]%N.
Proof. vm_compute. reflexivity. Qed.

(** test/pack.cpp:104. *)
Example l104_bubb_to_lulb_1 : pack BOBB LOLB 16 32 [0x1234; 0x5678]%N = [0x1e6a2c48]%N.
Proof. vm_compute. reflexivity. Qed.

(** test/pack.cpp:114. *)
Example l114_bubb_to_lulb_2 : pack BOBB LOLB 8 16 [0x12; 0x34; 0x56; 0x78]%N = [0x2c48; 0x1e6a]%N.
Proof. vm_compute. reflexivity. Qed.

(** test/pack.cpp:124. *)
Example l124_lubb_to_bubb_1 : pack LOBB BOBB 16 64 [0x1234; 0x5678; 0x90ab; 0xcdef]%N = [0x34127856ab90efcd]%N.
Proof. vm_compute. reflexivity. Qed.

(** test/pack.cpp:134. *)
Example l134_lubb_to_bubb_2 : pack LOBB BOBB 8 16 [0x12; 0x34; 0x56; 0x78]%N = [0x1234; 0x5678]%N.
Proof. vm_compute. reflexivity. Qed.

(** test/pack.cpp:144. *)
Example l144_lubb_to_bulb_1 : pack LOBB BOLB 32 64 [0x12345678; 0x90abcdef]%N = [0x1e6a2c48f7b3d509]%N.
Proof. vm_compute. reflexivity. Qed.

(** test/pack.cpp:154. *)
Example l154_lubb_to_bulb_2 : pack LOBB BOLB 8 16 [0x12; 0x34; 0x56; 0x78]%N = [0x482c; 0x6a1e]%N.
Proof. vm_compute. reflexivity. Qed.

(** test/pack.cpp:164. *)
Example l164_lubb_to_lubb_1 : pack LOBB LOBB 8 16 [0x56; 0x78]%N = [0x7856]%N.
Proof. vm_compute. reflexivity. Qed.

(** test/pack.cpp:174. *)
Example l174_lubb_to_lubb_2 : pack LOBB LOBB 16 32 [0x1234; 0x5678; 0x90ab; 0xcdef]%N = [0x56781234; 0xcdef90ab]%N.
Proof. vm_compute. reflexivity. Qed.

(** test/pack.cpp:184. *)
Example l184_lubb_to_lulb_1 : pack LOBB LOLB 8 32 [0x12; 0x34; 0x56; 0x78; 0x90; 0xab; 0xcd; 0xef]%N = [0x1e6a2c48; 0xf7b3d509]%N.
Proof. vm_compute. reflexivity. Qed.

(** test/pack.cpp:194. *)
Example l194_lubb_to_lulb_2 : pack LOBB LOLB 16 32 [0x1234; 0x5678; 0x90ab; 0xcdef]%N = [0x6a1e482c; 0xb3f709d5]%N.
Proof. vm_compute. reflexivity. Qed.

(** test/pack.cpp:204. *)
Example l204_bulb_to_bubb_1 : pack BOLB BOBB 8 64 [0x12; 0x34; 0x56; 0x78; 0x90; 0xab; 0xcd; 0xef; 0x48; 0x2c; 0x6a; 0x1e; 0x09; 0xd5; 0xb3; 0xf7]%N = [0x482c6a1e09d5b3f7; 0x1234567890abcdef]%N.
Proof. vm_compute. reflexivity. Qed.

(** test/pack.cpp:215. *)
Example l215_bulb_to_bubb_2 : pack BOLB BOBB 16 32 [0x1234; 0x5678; 0x90ab; 0xcdef]%N = [0x482c6a1e; 0x09d5b3f7]%N.
Proof. vm_compute. reflexivity. Qed.

(** test/pack.cpp:225. *)
Example l225_bulb_to_bulb_1 : pack BOLB BOLB 16 32 [0x1234; 0x5678; 0x90ab; 0xcdef]%N = [0x12345678; 0x90abcdef]%N.
Proof. vm_compute. reflexivity. Qed.

(** test/pack.cpp:235. *)
Example l235_bulb_to_bulb_2 : pack BOLB BOLB 8 16 [0x12; 0x34; 0x56; 0x78]%N = [0x1234; 0x5678]%N.
Proof. vm_compute. reflexivity. Qed.

(** test/pack.cpp:245. *)
Example l245_bulb_to_lubb_1 : pack BOLB LOBB 16 64 [0x1234; 0x5678; 0x90ab; 0xcdef; 0x482c; 0x6a1e; 0x09d5; 0xb3f7]%N = [0xf7b3d5091e6a2c48; 0xefcdab9078563412]%N.
Proof. vm_compute. reflexivity. Qed.

(** test/pack.cpp:255. *)
Example l255_bulb_to_lubb_2 : pack BOLB LOBB 8 16 [0x12; 0x34; 0x56; 0x78]%N = [0x2c48; 0x1e6a]%N.
Proof. vm_compute. reflexivity. Qed.

(** test/pack.cpp:265. *)
Example l265_bulb_to_lulb_1 : pack BOLB LOLB 32 64 [0x12345678; 0x90abcdef; 0x482c6a1e; 0x09d5b3f7]%N = [0xefcdab9078563412; 0xf7b3d5091e6a2c48]%N.
Proof. vm_compute. reflexivity. Qed.

(** test/pack.cpp:275. *)
Example l275_bulb_to_lulb_2 : pack BOLB LOLB 8 16 [0x12; 0x34; 0x56; 0x78]%N = [0x3412; 0x7856]%N.
Proof. vm_compute. reflexivity. Qed.

(** test/pack.cpp:285. *)
Example l285_lulb_to_bubb_1 : pack LOLB BOBB 8 16 [0x48; 0x2c; 0x6a; 0x1e]%N = [0x1234; 0x5678]%N.
Proof. vm_compute. reflexivity. Qed.

(** test/pack.cpp:295. *)
Example l295_lulb_to_bubb_2 : pack LOLB BOBB 16 32 [0x1234; 0x5678; 0x90ab; 0xcdef]%N = [0x2c481e6a; 0xd509f7b3]%N.
Proof. vm_compute. reflexivity. Qed.

(** test/pack.cpp:305. *)
Example l305_lulb_to_bulb_1 : pack LOLB BOLB 16 32 [0x09d5; 0xb3f7]%N = [0xd509f7b3]%N.
Proof. vm_compute. reflexivity. Qed.

(** test/pack.cpp:315. *)
Example l315_lulb_to_bulb_2 : pack LOLB BOLB 8 16 [0x12; 0x34; 0x56; 0x78]%N = [0x1234; 0x5678]%N.
Proof. vm_compute. reflexivity. Qed.

(** test/pack.cpp:325. *)
Example l325_lulb_to_lubb_1 : pack LOLB LOBB 16 64 [0x482c; 0x6a1e; 0x09d5; 0xb3f7]%N = [0xcdef90ab56781234]%N.
Proof. vm_compute. reflexivity. Qed.

(** test/pack.cpp:335. *)
Example l335_lulb_to_lubb_2 : pack LOLB LOBB 8 16 [0x12; 0x34; 0x56; 0x78]%N = [0x2c48; 0x1e6a]%N.
Proof. vm_compute. reflexivity. Qed.

(** test/pack.cpp:345. *)
Example l345_lulb_to_lulb_1 : pack LOLB LOLB 32 64 [0x12345678; 0x90abcdef; 0x482c6a1e; 0x09d5b3f7]%N = [0x90abcdef12345678; 0x09d5b3f7482c6a1e]%N.
Proof. vm_compute. reflexivity. Qed.

(** test/pack.cpp:355. *)
Example l355_lulb_to_lulb_2 : pack LOLB LOLB 8 16 [0x12; 0x34; 0x56; 0x78]%N = [0x3412; 0x7856]%N.
Proof. vm_compute. reflexivity. Qed.

(** test/pack.cpp:369. *)
Example l369_bubb_to_bubb_1 : pack BOBB BOBB 16 8 [0x1234; 0x5678]%N = [0x12; 0x34; 0x56; 0x78]%N.
Proof. vm_compute. reflexivity. Qed.

(** test/pack.cpp:379. *)
Example l379_bubb_to_bubb_2 : pack BOBB BOBB 32 16 [0x12345678; 0x90abcdef]%N = [0x1234; 0x5678; 0x90ab; 0xcdef]%N.
Proof. vm_compute. reflexivity. Qed.

(** test/pack.cpp:389. *)
Example l389_bubb_to_bulb_1 : pack BOBB BOLB 32 8 [0x482c6a1e]%N = [0x12; 0x34; 0x56; 0x78]%N.
Proof. vm_compute. reflexivity. Qed.

(** test/pack.cpp:399. *)
Example l399_bubb_to_bulb_2 : pack BOBB BOLB 32 16 [0x482c6a1e; 0x09d5b3f7]%N = [0x1234; 0x5678; 0x90ab; 0xcdef]%N.
Proof. vm_compute. reflexivity. Qed.

(** test/pack.cpp:409. *)
Example l409_bubb_to_lubb_1 : pack BOBB LOBB 64 8 [0xefcdab9078563412]%N = [0xef; 0xcd; 0xab; 0x90; 0x78; 0x56; 0x34; 0x12]%N.
Proof. vm_compute. reflexivity. Qed.

(** test/pack.cpp:419. *)
Example l419_bubb_to_lubb_2 : pack BOBB LOBB 32 16 [0x78563412; 0xefcdab90]%N = [0x5678; 0x1234; 0xcdef; 0x90ab]%N.
Proof. vm_compute. reflexivity. Qed.

(** test/pack.cpp:429. *)
Example l429_bubb_to_lulb_1 : pack BOBB LOLB 32 16 [0x1e6a2c48]%N = [0x5678; 0x1234]%N.
Proof. vm_compute. reflexivity. Qed.

(** test/pack.cpp:439. *)
Example l439_bubb_to_lulb_2 : pack BOBB LOLB 16 8 [0x2c48; 0x1e6a]%N = [0x34; 0x12; 0x78; 0x56]%N.
Proof. vm_compute. reflexivity. Qed.

(** test/pack.cpp:449. *)
Example l449_lubb_to_bubb_1 : pack LOBB BOBB 64 16 [0x34127856ab90efcd]%N = [0xcdef; 0x90ab; 0x5678; 0x1234]%N.
Proof. vm_compute. reflexivity. Qed.

(** test/pack.cpp:459. *)
Example l459_lubb_to_bubb_2 : pack LOBB BOBB 16 8 [0x1234; 0x5678]%N = [0x34; 0x12; 0x78; 0x56]%N.
Proof. vm_compute. reflexivity. Qed.

(** test/pack.cpp:469. *)
Example l469_lubb_to_bulb_1 : pack LOBB BOLB 64 32 [0x1e6a2c48f7b3d509]%N = [0x90abcdef; 0x12345678]%N.
Proof. vm_compute. reflexivity. Qed.

(** test/pack.cpp:479. *)
Example l479_lubb_to_bulb_2 : pack LOBB BOLB 16 8 [0x482c; 0x6a1e]%N = [0x34; 0x12; 0x78; 0x56]%N.
Proof. vm_compute. reflexivity. Qed.

(** test/pack.cpp:489. *)
Example l489_lubb_to_lubb_1 : pack LOBB LOBB 16 8 [0x7856]%N = [0x56; 0x78]%N.
Proof. vm_compute. reflexivity. Qed.

(** test/pack.cpp:499. *)
Example l499_lubb_to_lubb_2 : pack LOBB LOBB 32 16 [0x56781234; 0xcdef90ab]%N = [0x1234; 0x5678; 0x90ab; 0xcdef]%N.
Proof. vm_compute. reflexivity. Qed.

(** test/pack.cpp:509. *)
Example l509_lubb_to_lulb_1 : pack LOBB LOLB 32 8 [0x1e6a2c48; 0xf7b3d509]%N = [0x12; 0x34; 0x56; 0x78; 0x90; 0xab; 0xcd; 0xef]%N.
Proof. vm_compute. reflexivity. Qed.

(** test/pack.cpp:519. *)
Example l519_lubb_to_lulb_2 : pack LOBB LOLB 32 16 [0x6a1e482c; 0xb3f709d5]%N = [0x1234; 0x5678; 0x90ab; 0xcdef]%N.
Proof. vm_compute. reflexivity. Qed.

(** test/pack.cpp:529. *)
Example l529_bulb_to_bubb_1 : pack BOLB BOBB 64 8 [0x482c6a1e09d5b3f7; 0x1234567890abcdef]%N = [0x12; 0x34; 0x56; 0x78; 0x90; 0xab; 0xcd; 0xef; 0x48; 0x2c; 0x6a; 0x1e; 0x09; 0xd5; 0xb3; 0xf7]%N.
Proof. vm_compute. reflexivity. Qed.

(** test/pack.cpp:540. *)
Example l540_bulb_to_bubb_2 : pack BOLB BOBB 32 16 [0x482c6a1e; 0x09d5b3f7]%N = [0x1234; 0x5678; 0x90ab; 0xcdef]%N.
Proof. vm_compute. reflexivity. Qed.

(** test/pack.cpp:550. *)
Example l550_bulb_to_bulb_1 : pack BOLB BOLB 32 16 [0x12345678; 0x90abcdef]%N = [0x1234; 0x5678; 0x90ab; 0xcdef]%N.
Proof. vm_compute. reflexivity. Qed.

(** test/pack.cpp:560. *)
Example l560_bulb_to_bulb_2 : pack BOLB BOLB 16 8 [0x1234; 0x5678]%N = [0x12; 0x34; 0x56; 0x78]%N.
Proof. vm_compute. reflexivity. Qed.

(** test/pack.cpp:570. *)
Example l570_bulb_to_lubb_1 : pack BOLB LOBB 64 16 [0xf7b3d5091e6a2c48; 0xefcdab9078563412]%N = [0xcdef; 0x90ab; 0x5678; 0x1234; 0xb3f7; 0x09d5; 0x6a1e; 0x482c]%N.
Proof. vm_compute. reflexivity. Qed.

(** test/pack.cpp:580. *)
Example l580_bulb_to_lubb_2 : pack BOLB LOBB 16 8 [0x2c48; 0x1e6a]%N = [0x34; 0x12; 0x78; 0x56]%N.
Proof. vm_compute. reflexivity. Qed.

(** test/pack.cpp:590. *)
Example l590_bulb_to_lulb_1 : pack BOLB LOLB 64 32 [0xefcdab9078563412; 0xf7b3d5091e6a2c48]%N = [0x90abcdef; 0x12345678; 0x09d5b3f7; 0x482c6a1e]%N.
Proof. vm_compute. reflexivity. Qed.

(** test/pack.cpp:600. *)
Example l600_bulb_to_lulb_2 : pack BOLB LOLB 16 8 [0x3412; 0x7856]%N = [0x34; 0x12; 0x78; 0x56]%N.
Proof. vm_compute. reflexivity. Qed.

(** test/pack.cpp:610. *)
Example l610_lulb_to_bubb_1 : pack LOLB BOBB 16 8 [0x1234; 0x5678]%N = [0x2c; 0x48; 0x1e; 0x6a]%N.
Proof. vm_compute. reflexivity. Qed.

(** test/pack.cpp:620. *)
Example l620_lulb_to_bubb_2 : pack LOLB BOBB 32 16 [0x2c481e6a; 0xd509f7b3]%N = [0x5678; 0x1234; 0xcdef; 0x90ab]%N.
Proof. vm_compute. reflexivity. Qed.

(** test/pack.cpp:630. *)
Example l630_lulb_to_bulb_1 : pack LOLB BOLB 32 16 [0xd509f7b3]%N = [0xb3f7; 0x09d5]%N.
Proof. vm_compute. reflexivity. Qed.

(** test/pack.cpp:640. *)
Example l640_lulb_to_bulb_2 : pack LOLB BOLB 16 8 [0x1234; 0x5678]%N = [0x34; 0x12; 0x78; 0x56]%N.
Proof. vm_compute. reflexivity. Qed.

(** test/pack.cpp:650. *)
Example l650_lulb_to_lubb_1 : pack LOLB LOBB 64 16 [0xcdef90ab56781234]%N = [0x482c; 0x6a1e; 0x09d5; 0xb3f7]%N.
Proof. vm_compute. reflexivity. Qed.

(** test/pack.cpp:660. *)
Example l660_lulb_to_lubb_2 : pack LOLB LOBB 16 8 [0x2c48; 0x1e6a]%N = [0x12; 0x34; 0x56; 0x78]%N.
Proof. vm_compute. reflexivity. Qed.

(** test/pack.cpp:670. *)
Example l670_lulb_to_lulb_1 : pack LOLB LOLB 64 32 [0x90abcdef12345678; 0x09d5b3f7482c6a1e]%N = [0x12345678; 0x90abcdef; 0x482c6a1e; 0x09d5b3f7]%N.
Proof. vm_compute. reflexivity. Qed.

(** test/pack.cpp:680. *)
Example l680_lulb_to_lulb_2 : pack LOLB LOLB 16 8 [0x3412; 0x7856]%N = [0x12; 0x34; 0x56; 0x78]%N.
Proof. vm_compute. reflexivity. Qed.

(** test/pack.cpp:694. *)
Example l694_bubb_to_bubb_1 : pack BOBB BOBB 32 32 [0x01928374; 0x65473829]%N = [0x01928374; 0x65473829]%N.
Proof. vm_compute. reflexivity. Qed.

(** test/pack.cpp:704. *)
Example l704_bubb_to_bubb_2 : pack BOBB BOBB 8 8 [0x01; 0x23]%N = [0x01; 0x23]%N.
Proof. vm_compute. reflexivity. Qed.

(** test/pack.cpp:724. *)
Example l724_lubb_to_lubb_1 : pack LOBB LOBB 32 32 [0x01928374; 0x65473829]%N = [0x01928374; 0x65473829]%N.
Proof. vm_compute. reflexivity. Qed.

(** test/pack.cpp:734. *)
Example l734_lubb_to_lubb_2 : pack LOBB LOBB 8 8 [0x01; 0x23]%N = [0x01; 0x23]%N.
Proof. vm_compute. reflexivity. Qed.

(** test/pack.cpp:754. *)
Example l754_bulb_to_bulb_1 : pack BOLB BOLB 32 32 [0x01928374; 0x65473829]%N = [0x01928374; 0x65473829]%N.
Proof. vm_compute. reflexivity. Qed.

(** test/pack.cpp:764. *)
Example l764_bulb_to_bulb_2 : pack BOLB BOLB 8 8 [0x01; 0x23]%N = [0x01; 0x23]%N.
Proof. vm_compute. reflexivity. Qed.

(** test/pack.cpp:784. *)
Example l784_lulb_to_lulb_1 : pack LOLB LOLB 32 32 [0x01928374; 0x65473829]%N = [0x01928374; 0x65473829]%N.
Proof. vm_compute. reflexivity. Qed.

(** test/pack.cpp:794. *)
Example l794_lulb_to_lulb_2 : pack LOLB LOLB 8 8 [0x01; 0x23]%N = [0x01; 0x23]%N.
Proof. vm_compute. reflexivity. Qed.

(** test/pack.cpp:814. *)
Example l814_bubb_to_lubb_1 : pack BOBB LOBB 8 8 [0x89; 0xad; 0x56; 0xef]%N = [0x89; 0xad; 0x56; 0xef]%N.
Proof. vm_compute. reflexivity. Qed.

(** test/pack.cpp:834. *)
Example l834_bubb_to_lubb_3 : pack BOBB LOBB 16 16 [0x89ad; 0x56ef; 0x7340; 0x12cb]%N = [0xad89; 0xef56; 0x4073; 0xcb12]%N.
Proof. vm_compute. reflexivity. Qed.

(** test/pack.cpp:845. *)
Example l845_bubb_to_bulb_1 : pack BOBB BOLB 8 8 [0x89; 0xad; 0x56; 0xef]%N = [0x91; 0xb5; 0x6a; 0xf7]%N.
Proof. vm_compute. reflexivity. Qed.

(** test/pack.cpp:856. *)
Example l856_bubb_to_bulb_2 : pack BOBB BOLB 16 16 [0x89ad; 0x56ef; 0x7340; 0x12cb]%N = [0x91b5; 0x6af7; 0xce02; 0x48d3]%N.
Proof. vm_compute. reflexivity. Qed.

(** test/pack.cpp:867. *)
Example l867_bubb_to_lulb_1 : pack BOBB LOLB 8 8 [0x89; 0xad; 0x56; 0xef]%N = [0x91; 0xb5; 0x6a; 0xf7]%N.
Proof. vm_compute. reflexivity. Qed.

(** test/pack.cpp:878. *)
Example l878_bubb_to_lulb_2 : pack BOBB LOLB 16 16 [0x89ad; 0x56ef; 0x7340; 0x12cb]%N = [0xb591; 0xf76a; 0x02ce; 0xd348]%N.
Proof. vm_compute. reflexivity. Qed.

(** test/pack.cpp:889. *)
Example l889_lubb_to_bubb_1 : pack LOBB BOBB 8 8 [0x89; 0xad; 0x56; 0xef]%N = [0x89; 0xad; 0x56; 0xef]%N.
Proof. vm_compute. reflexivity. Qed.

(** test/pack.cpp:909. *)
Example l909_lubb_to_bubb_3 : pack LOBB BOBB 32 32 [0x89ad56ef; 0x734012cb]%N = [0xef56ad89; 0xcb124073]%N.
Proof. vm_compute. reflexivity. Qed.

(** test/pack.cpp:920. *)
Example l920_lubb_to_bulb_1 : pack LOBB BOLB 8 8 [0x89; 0xad; 0x56; 0xef]%N = [0x91; 0xb5; 0x6a; 0xf7]%N.
Proof. vm_compute. reflexivity. Qed.

(** test/pack.cpp:931. *)
Example l931_lubb_to_bulb_2 : pack LOBB BOLB 32 32 [0x89ad56ef; 0x734012cb]%N = [0xf76ab591; 0xd34802ce]%N.
Proof. vm_compute. reflexivity. Qed.

(** test/pack.cpp:942. *)
Example l942_lubb_to_lulb_1 : pack LOBB LOLB 8 8 [0x89; 0xad; 0x56; 0xef]%N = [0x91; 0xb5; 0x6a; 0xf7]%N.
Proof. vm_compute. reflexivity. Qed.

(** test/pack.cpp:953. *)
Example l953_lubb_to_lulb_2 : pack LOBB LOLB 32 32 [0x89ad56ef; 0x734012cb]%N = [0x91b56af7; 0xce0248d3]%N.
Proof. vm_compute. reflexivity. Qed.

(** test/pack.cpp:964. *)
Example l964_lulb_to_bubb_1 : pack LOLB BOBB 8 8 [0x89; 0xad; 0x56; 0xef]%N = [0x91; 0xb5; 0x6a; 0xf7]%N.
Proof. vm_compute. reflexivity. Qed.

(** test/pack.cpp:975. *)
Example l975_lulb_to_bubb_2 : pack LOLB BOBB 16 16 [0x0f19; 0x5628; 0xca73; 0xbe4d]%N = [0x98f0; 0x146a; 0xce53; 0xb27d]%N.
Proof. vm_compute. reflexivity. Qed.

(** test/pack.cpp:986. *)
Example l986_lulb_to_bulb_1 : pack LOLB BOLB 8 8 [0x89; 0xad; 0x56; 0xef]%N = [0x89; 0xad; 0x56; 0xef]%N.
Proof. vm_compute. reflexivity. Qed.

(** test/pack.cpp:996. *)
Example l996_lulb_to_bulb_2 : pack LOLB BOLB 16 16 [0x0f19; 0x5628; 0xca73; 0xbe4d]%N = [0x190f; 0x2856; 0x73ca; 0x4dbe]%N.
Proof. vm_compute. reflexivity. Qed.

(** test/pack.cpp:1007. *)
Example l1007_lulb_to_lubb_1 : pack LOLB LOBB 8 8 [0x89; 0xad; 0x56; 0xef]%N = [0x91; 0xb5; 0x6a; 0xf7]%N.
Proof. vm_compute. reflexivity. Qed.

(** test/pack.cpp:1018. *)
Example l1018_lulb_to_lubb_2 : pack LOLB LOBB 16 16 [0x0f19; 0x5628; 0xca73; 0xbe4d]%N = [0xf098; 0x6a14; 0x53ce; 0x7db2]%N.
Proof. vm_compute. reflexivity. Qed.

(** test/pack.cpp:1029. *)
Example l1029_bulb_to_bubb_1 : pack BOLB BOBB 8 8 [0x89; 0xad; 0x56; 0xef]%N = [0x91; 0xb5; 0x6a; 0xf7]%N.
Proof. vm_compute. reflexivity. Qed.

(** test/pack.cpp:1040. *)
Example l1040_bulb_to_bubb_2 : pack BOLB BOBB 16 16 [0x0f19; 0x5628; 0xca73; 0xbe4d]%N = [0xf098; 0x6a14; 0x53ce; 0x7db2]%N.
Proof. vm_compute. reflexivity. Qed.

(** test/pack.cpp:1051. *)
Example l1051_bulb_to_lubb_1 : pack BOLB LOBB 8 8 [0x89; 0xad; 0x56; 0xef]%N = [0x91; 0xb5; 0x6a; 0xf7]%N.
Proof. vm_compute. reflexivity. Qed.

(** test/pack.cpp:1062. *)
Example l1062_bulb_to_lubb_2 : pack BOLB LOBB 16 16 [0x0f19; 0x5628; 0xca73; 0xbe4d]%N = [0x98f0; 0x146a; 0xce53; 0xb27d]%N.
Proof. vm_compute. reflexivity. Qed.

(** test/pack.cpp:1073. *)
Example l1073_bulb_to_lulb_1 : pack BOLB LOLB 8 8 [0x89; 0xad; 0x56; 0xef]%N = [0x89; 0xad; 0x56; 0xef]%N.
Proof. vm_compute. reflexivity. Qed.

(** test/pack.cpp:1083. *)
Example l1083_bulb_to_lulb_2 : pack BOLB LOLB 16 16 [0x0f19; 0x5628; 0xca73; 0xbe4d]%N = [0x190f; 0x2856; 0x73ca; 0x4dbe]%N.
Proof. vm_compute. reflexivity. Qed.
