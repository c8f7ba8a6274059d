(** * Numbers exhibited in the proofs about the maps to BLS12-381, found by tools/h2c_cert.py *)
From Coq Require Import ZArith List.
Import ListNotations.
Local Open Scope Z_scope.

(** The polynomial whose roots are kernel1 of SpecH2C.v. *)
Definition c_d1 : list Z :=
  [0x133341fb0962a34cb0504a9c4fada0a5090d38679b4c040d5d1c3afb023a3409fcc0815fea66d8b02bbef9c8b5a66e07;
   0x264908af037bcede00d054cf5d4775e83eb6cf63c76b969f8ed174fb59fcff78d201f46f6cfc4ed6552e59ce75177b0;
   0x1335c502c1f54c49aceea65e87fd7203ba0f626f305fc0cfd606a5dae9f3c8e81a4b3b69600129fabd307c69bf319d39;
   0x94440f65f408a6e930e16e3e92dd17bf60d6e9679a8d3d58593de55ac23703042d609537eb3549aac234d896ca82944;
   0x4afe09d5cf4956a23b6b71f59d2b3407b415a774b7be81bbb6fa99cbc798e0ac98ba725a5bc328016b1c268b4766e85;
   0x1].
(** An input of the map of G1 whose image on the auxiliary curve is in the kernel, its x coordinate, a root of g there. *)
Definition c_u : Z := 0x68951d10be6961019aa800a51cf48b707fc9e40700510406be9242d0c8dd866afdec0d66f9dc2cf1dc944702ec161bb.
Definition c_ux : Z := 0x10ef325dd1e98bdf0d97a4c6b7f968ed7f31f2fbff088acb39d5319cfc261ea18773405f325612742f0c5d90634bcf4.
Definition c_uy : Z := 0xeb3efc0a8592166adb221f4b9158d9ff0d160ce6a2cc1a280b3ec28c01870fa13ca7cddd7ba78f6cd54fe36375cd5fd.
(** The x coordinate of the exceptional inputs, and a root of g there. *)
Definition c_ex1 : Z := 0x123939a31626a32de772bc7a591ea140683bca0c62efb105310d5ce1d27d1aadf79a5d5cbe8e2c4ff7d4816af76d2814.
Definition c_ey1 : Z := 0x5be3446f07e910e291153e84f1dabd3dfe5c2b1080d8b6a640425c3826f2a429373f9bab7e8308f6dd10ffa11124dbc.
(** Roots of -11 and of -5. *)
Definition c_m11 : Z := 0x4610e003bd3ac94dfa9246c390d7a78942602029175a4ca366d601f33f3946e3ed39794735c38315d874bc1d70637c3.
Definition c_m5 : Z := 0x186417302d5a65347a88b0f999ab2b504614aa5e2eebdeb1a014c40bceb7d2306c12a6d436befcf94d39c9db7b263cd4.
(** A root of unity of order 9 and s with -4 = z^1 s^3. *)
Definition c_z9 : Z := 0x6959b15b1f027d2e6958dc94f9c05b7771c54272f411c12c80f5ee0a5cef230d24a5961a8865315682b26a439ca7843.
Definition c_s3 : Z := 0x1057659c55f249977c1101ba8bb806a21e1dc9077e21cab4a8088d575870855b864236250c9335a2add700b81bb494fe.
(** The x coordinate of the kernel of the isogeny of G2, and a root of minus the norm of g there. *)
Definition c_x2 : Z * Z := (0x1a0111ea397fe69a4b1ba7b6434bacd764774b84f38512bf6730d2a0f6b0f6241eabfffeb153ffffb9feffffffffaaa5, 0x6).
Definition c_n2 : Z := 0x1764c4d4cfa3326ab57cbfed7f4a64378dc56542f8ff574f159cb76173021e735e4c97e34b82fa6cc8627df6f1f0af2.
(** The x coordinate of the exceptional inputs of G2, and a root of g there. *)
Definition c_ex2 : Z * Z := (0x1a59d4b6bbf912a32d63b43028e2deeebe8d5d97ca64b6d66f64ac7a265a9305e1a40da5edb81b4e3ac4f5c28f5bd27,
  0x15103a07f641331bb298f5ed3ba1230aa0bcc9f87d923077324df24a0f7ffa93045d3d6f94c17ae10efa11eb851e7336).
Definition c_ey2 : Z * Z := (0x1776b5d3dd70bb2ac6e46be0849209c9c47853350da878bdc14a5042102f1f01cbc75043b8d13d709dd5ca27f92cb390,
  0x2c094c100c4f8a157767045bc04279dd04f207fbddc4de6675911b512cddacc0061215698453b5b11125516029e4d21).
