(** Inverses of the matrices of MPoseidonTables.v, computed by tools/poseidon_inverses.py and checked in LPoseidonInst.v. *)
From Coq Require Import NArith List.
Import ListNotations.
Local Open Scope N_scope.

Definition bn254_2_inverse : list (list N) :=
  [[0x203d1d351372bf15b6465d69d3e12806879a5f36b4ba6dd17dfea07d03f82f26;
    0x29b6537218615bcb4b6ad7fe4620063d48e42ce2096b3a1d6e320628bb032c22;
    0x11551257de3d4b5ab51bd377d7bb55c054f51f711623515b1e2a35a958b93a6a];
   [0x29dedb1bbf80c8863d569912c20f1f82bf0dc3bc4fb62798dd1319814f833b54;
    0x130b59143f4e340cd66c7251dc8f56fbbe0367fec1575cb124ca8a66304e3849;
    0xc2808c9533e2c526087842fb62521a3248c8d6d3b16d4b4108476d2eeda95f9];
   [0x173249a1c9eac2591706fe09af22cfd29e1387e706cf0ded2889dc145c61609;
    0xabc7f158780841ec82e03ec3cee0cf1d16270b0238f3063d2e5fb5138e59350;
    0x1738a318c8631b6e8305505aaf3b497fe9f2478c2f28ee945413af26963b4700]].
Definition bn254_4_inverse : list (list N) :=
  [[0x164ce7689cd34e715530d7a8f9f89493fa401f28866868300a07b795463d35d5;
    0x1db393d0c2263141f20ea20e014a394a12b2b6d18e5bb2fcd023820eb5609d5c;
    0x2ea4b39c798cb58fc5c1feea7573b0bd6384229a60b5b10e00364d7e376c668a;
    0x2d2b4966cbb1a87832f7e0591681966b81bd3a5a0ed04aed9d41b342029ba735;
    0x245f6aa5486951fc05c8759855667af4e608a349b9dd3773644241f986b0fed0];
   [0x2ee7542648a761d8d986605b83ae10161b4bd6e69583846944ed206093d6aabd;
    0x3f8d4362488e27a7ed0b2b93fc0a2a6833b15f6f4e4c37d15190ef0969c8858;
    0xd7155cc3c817a4453138d6d7efd5b139ddd05b3aebe03737510417e0bb5e415;
    0x2a3f9c292dfdd2782dd5fa16bd6aff83a98dded90fa50d828e6bf1612749b599;
    0x2ef087b95a30db206e4a5dbc7bbc2f864584a3ce4044b0dbb9a9386f96f88ce4];
   [0x268b887963db67de1e46b9c6579509bf8b3b35799934113f9b0adc8be22c2097;
    0x7c4cf6317d31876d25c3c95da1d1f6e2a8a52a76b3b17072b8e51632fdd069d;
    0x1bb99031ff6199b89621c4849c428d51cd503388d240f0a3fd702b37cca47eae;
    0x2bb7f772403e18b530bc6db6591628d52ea1499416b4849ee85db447c038bd9b;
    0x7d150a72e22cdd15d41bdd3ccf8e33f02424059a4aaf101a70f45bf661ba481];
   [0x1aea063d15e7adc4a06a0858209330f5bcd5922e8e81b5509305cd673be8ad9e;
    0x1ab18e5f72e67dcc438c2b060ec991745c33674763c77b6be378276bfdd32f08;
    0x1473c50d66be6cbee3216274cde2e85914e19fd3481bad423cd940ae057a9f08;
    0x262ef3416da68dcbef9ee1d4c8aaa35ac8c6e6e77849266cbb7327dc2956b7a0;
    0x229cfdf3f130b726d9e031c10ea9700de85b23a57fd148e758b0d3bf0f3e2fdc];
   [0x125e07c324bfc084f986809ce528a884deffa4d49dfdb73990623a1fa06826c5;
    0x10ef80f794f0c1cec1d24a0dc7fb7b6111f1b42a43909d7260db1afca351100f;
    0x1e2f2d99860658a8e31bfe9d3806054c15b0d5de8c2d49b789de85d9ecd3c179;
    0x199f0a09d4d0c2bf9afd5ae47f613afa107ecbf4a7f540669a2545674b427d94;
    0x1cefd8df4cfbe3410164dd73b1a7c35e1429981380184c8174979f2e71b01a16]].
Definition bls12_381_2_inverse : list (list N) :=
  [[0x67b27c22bc0afbd6fefa95d83ac1f1445a2391407a0b294dceb5447579ecb090;
    0x73cb716db2cca33611098b8fda1bc43b174ab7d98cea669a01923674c9fee2;
    0x4a41d60c3d527aac016b7c00cd72ff04de3ce6325a89585f88e4b042ddcb737a];
   [0x31ff3e85cfc78a3acfbba7ee7f58f250c0d1d9ca087c1c0826e9245fe6d0ffbe;
    0x6d00ed0af8e3bf12fe91a2f7c5e8d2990ae03cba306f8003399485fb6f5a6627;
    0x294b3533f0cde9eea9434db32aae3785ca6fb12a2726bca80e7eec3d8b3ee118];
   [0x6d9aa9166edbde939d8a38584043fa7a146e8423b1b53e293b6a919329364f38;
    0x54c6bf45c46568bf64d7a2fa8be2c1a61891fe5d182dea67dcb4f5d1d531b52d;
    0x182f2bc23266aaa8170036d58e7d01f9649fb633e613dcf02f01aef3a6230efd]].
Definition bls12_381_4_inverse : list (list N) :=
  [[0x4899634497403325e8f84efc2e31625a1daebe65457eb8cf433a084da392893a;
    0x34c97ed951cf9f33010cafec878ed47e69811d2e1a538ac68f7f54f1941bd621;
    0x68840163f834dfa09208bd4ce463913c8179ca5bcbac1693379a15ceb53aff7;
    0x6de59c46b36818f1778805399eb43e492741b9c2a4684a2f6abbeece1f5d712b;
    0x1692389079ddb99093e06405abe48fb4679ec05736d2c34ef317643878dfa892];
   [0x706eaeee0872c9b9bfedaab4a1979181dab75f40c549a6773586ae2f601be63d;
    0x2637e14d4ea41dba75150b4f8a05c7e1ee4e60f75e48a1c8265dc940aa2cbf0f;
    0x12b0074123fed26394605ca37171761a478d89697a47636305ffb867d2d2835d;
    0x3ebc21fd1ed22b2067f79a7704e9a049245fdf6da5a0d55a9da8f8daf3aee4ac;
    0x4234abc6e0eeb42b5680d2b486c18c70d6541f7e5b3053edc863ed5004cfcbf2];
   [0x12f5283be0f9d2f4fd28be643d4c080439c588fe1a8cb87e9b0c2e0145b2a1bc;
    0x25d1f2dc148cdeb316ba5cd1df27a25b5510a810dd19212be24155db27c22d1;
    0x640e3db571b190105452eaeef50cecb347c96dcebba7ef26c6581bed378a3d41;
    0x55d6384b4d9c9dd7d74daef4de0aeff4f41d284e987e8c75b7f80d2cee04c5c2;
    0xf479498001ac0d2372426783da0081f49b6cbaf544856d26a55a5f18a78884d];
   [0x2641ac506dc7a7aa6bc2ba2b81d94c5bbcb470a7bdaf3d0f89913fef11d8f3af;
    0x22fc4990a37223fd05b92ab26c24e8b5eb1de86db623e1f6e66dcede676bfa6d;
    0x4237c499413686b45de204d0f0c56e1ec1eff28a7e3eece75cf478741a6ced07;
    0x632700e3cba19b909268261b45212be2f96657fdff7ea3546b634d10f9afe7b0;
    0x301da1fd4eed1de9839e68079b6732502bea5cf4fe454199cf3917a58afe8dd8];
   [0x231ec4138a2ca7b018259a4fa2923ee5d7faae0432d3236f50d718ad2d2fe365;
    0x438abe6ac2a55b0b05f4dd821c8fcdcfbc33aaac35dba97a13509e5c215cfc0e;
    0x47369fa26b8eb7d26e460f4747c78b5dfb1b578009c8f3310218ce4f416a177c;
    0x1dc1a33b5f010a8ad2ffd5ced9de88db58d63987087accec78c7d2587c4c6b72;
    0x2285fbb1adda50aa95b8dc28180f67d494c0b85bd9fbb76819c5b9ba1ff35670]].
Definition pallas_inverse : list (list N) :=
  [[0xa5720332dde9104a3245a4225deac2cced58936e40872070f6d6e607d1fdebb;
    0x1ace8cddf3363f78def34039b8702123d3f2211e81a8af4c2d9e2319b61cbdee;
    0x318ef47357ea38dc9b98c768ddf34eedb0ea50d84278c20e32ee1a102ee08b1];
   [0x15fa9b837bfc4739b6989aaad361eb2398f1b741315fe43466ff94134cd85143;
    0x3f748d4a67294e3fe83ad8e82b5969d1faa9e89380b014d11cf3eb6a19a97122;
    0x2c903f5fbf7993c66b764fc7592791815b5dd6d6abcf5c283e46253c329fe95d];
   [0x1faa17e3a579802c77fa53a1f58eb84c4515b4ad85ec44e112dc2d4b5d3706f;
    0x1ce660deded8b09f272c9f774760326bd0e0e37ffbbf351c4a836a1e5267c659;
    0x2cea24804e7208030df5f5984e13793e775b19c952b2bdf3de3ba175ef4ee7c]].
Definition vesta_inverse : list (list N) :=
  [[0x35594406f9c747d8ef7336737547e7212799ff208a2773cca9b6b753e8d0a0e5;
    0x3003d2866e0a64b272baca0263474c423444b2ce8b54ccc5f9282d84bcd5571;
    0x35048a7af1032168939fc42c8379035146eeb12509201117efe74062ba93184b];
   [0x3a51ff6995bfed72b4c85e652e89f44ee37c6c3100cd42115023e19694875804;
    0x353d3d097e21b7daa27006f5e021aecd5cf1c048e98160d88332dd8d9b05b492;
    0x13340eeec0f5b9b7341bfe7b26279a5ea4916787d98619ff40af87aa80d8cbe0];
   [0x6e44bcb9c3a239d00c79d86ef4791a543946f564f24d1a19c4fe3f332fd281b;
    0xe36d3eb130e08fa7b679afd31f60be235e8ed4c793d00ea5559356b4afe02a7;
    0x1e77407c9203234da99278507acc63e51c92453d9047bcd0cbae62fd4e8cd457]].
