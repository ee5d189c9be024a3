(** Coefficients and generators of the shipped curves, extracted from A/curves/detail by
    tools/curve_params.py; the records and lists at the end are written by hand. *)
From Coq Require Import ZArith List.
From Verif Require Import Model.FieldParams.
Import ListNotations.
Local Open Scope Z_scope.

(** secp_r1/256/short_weierstrass_params.hpp:45-47 *)
Definition secp_r1_160_a : Z := 0xffffffffffffffffffffffffffffffff7ffffffc.
(** secp_r1/256/short_weierstrass_params.hpp:53-55 *)
Definition secp_r1_160_b : Z := 0x1c97befc54bd7a8b65acf89f81d4d4adc565fa45.
(** secp_r1/256/short_weierstrass_params.hpp:80-82 *)
Definition secp_r1_160_one : list Z := [0x4a96b5688ef573284664698968c38bb913cbfc82; 0x23a628553168947d59dcc912042351377ac5fb32].
(** secp_r1/256/short_weierstrass_params.hpp:103-105 *)
Definition secp_r1_192_a : Z := 0xfffffffffffffffffffffffffffffffefffffffffffffffc.
(** secp_r1/256/short_weierstrass_params.hpp:111-113 *)
Definition secp_r1_192_b : Z := 0x64210519e59c80e70fa7e9ab72243049feb8deecc146b9b1.
(** secp_r1/256/short_weierstrass_params.hpp:138-142 *)
Definition secp_r1_192_one : list Z := [0x188da80eb03090f67cbf20eb43a18800f4ff0afd82ff1012; 0x7192b95ffc8da78631011ed6b24cdd573f977a11e794811].
(** secp_r1/256/short_weierstrass_params.hpp:163-165 *)
Definition secp_r1_224_a : Z := 0xfffffffffffffffffffffffffffffffefffffffffffffffffffffffe.
(** secp_r1/256/short_weierstrass_params.hpp:171-173 *)
Definition secp_r1_224_b : Z := 0xb4050a850c04b3abf54132565044b0b7d7bfd8ba270b39432355ffb4.
(** secp_r1/256/short_weierstrass_params.hpp:198-202 *)
Definition secp_r1_224_one : list Z := [0xb70e0cbd6bb4bf7f321390b94a03c1d356c21122343280d6115c1d21; 0xbd376388b5f723fb4c22dfe6cd4375a05a07476444d5819985007e34].
(** secp_r1/256/short_weierstrass_params.hpp:223-225 *)
Definition secp_r1_256_a : Z := 0xffffffff00000001000000000000000000000000fffffffffffffffffffffffc.
(** secp_r1/256/short_weierstrass_params.hpp:231-233 *)
Definition secp_r1_256_b : Z := 0x5ac635d8aa3a93e7b3ebbd55769886bc651d06b0cc53b0f63bce3c3e27d2604b.
(** secp_r1/256/short_weierstrass_params.hpp:257-261 *)
Definition secp_r1_256_one : list Z := [0x6b17d1f2e12c4247f8bce6e563a440f277037d812deb33a0f4a13945d898c296; 0x4fe342e2fe1a7f9b8ee7eb4a7c0f9e162bce33576b315ececbb6406837bf51f5].
(** secp_r1/256/short_weierstrass_params.hpp:282-284 *)
Definition secp_r1_384_a : Z := 0xfffffffffffffffffffffffffffffffffffffffffffffffffffffffffffffffeffffffff0000000000000000fffffffc.
(** secp_r1/256/short_weierstrass_params.hpp:290-292 *)
Definition secp_r1_384_b : Z := 0xb3312fa7e23ee7e4988e056be3f82d19181d9c6efe8141120314088f5013875ac656398d8a2ed19d2a85c8edd3ec2aef.
(** secp_r1/256/short_weierstrass_params.hpp:317-321 *)
Definition secp_r1_384_one : list Z := [0xaa87ca22be8b05378eb1c71ef320ad746e1d3b628ba79b9859f741e082542a385502f25dbf55296c3a545e3872760ab7; 0x3617de4a96262c6f5d9e98bf9292dc29f8f41dbd289a147ce9da3113b5f0b8c00a60b1ce1d7e819d7a431d7c90ea0e5f].
(** secp_r1/256/short_weierstrass_params.hpp:342-344 *)
Definition secp_r1_521_a : Z := 0x1fffffffffffffffffffffffffffffffffffffffffffffffffffffffffffffffffffffffffffffffffffffffffffffffffffffffffffffffffffffffffffffffffc.
(** secp_r1/256/short_weierstrass_params.hpp:350-352 *)
Definition secp_r1_521_b : Z := 0x51953eb9618e1c9a1f929a21a0b68540eea2da725b99b315f3b8b489918ef109e156193951ec7e937b1652c0bd3bb1bf073573df883d2c34f1ef451fd46b503f00.
(** secp_r1/256/short_weierstrass_params.hpp:377-381 *)
Definition secp_r1_521_one : list Z := [0xc6858e06b70404e9cd9e3ecb662395b4429c648139053fb521f828af606b4d3dbaa14b5e77efe75928fe1dc127a2ffa8de3348b3c1856a429bf97e7e31c2e5bd66; 0x11839296a789a3bc0045c8a5fb42c7d1bd998f54449579b446817afbd17273e662c97ee72995ef42640c550b9013fad0761353c7086a272c24088be94769fd16650].
(** secp_k1/256/short_weierstrass_params.hpp:45-47 *)
Definition secp_k1_160_a : Z := 0x0.
(** secp_k1/256/short_weierstrass_params.hpp:48-50 *)
Definition secp_k1_160_b : Z := 0x7.
(** secp_k1/256/short_weierstrass_params.hpp:70-72 *)
Definition secp_k1_160_one : list Z := [0x3b4c382ce37aa192a4019e763036f4f5dd4d7ebb; 0x938cf935318fdced6bc28286531733c3f03c4fee].
(** secp_k1/256/short_weierstrass_params.hpp:93-95 *)
Definition secp_k1_192_a : Z := 0x0.
(** secp_k1/256/short_weierstrass_params.hpp:96-98 *)
Definition secp_k1_192_b : Z := 0x3.
(** secp_k1/256/short_weierstrass_params.hpp:120-124 *)
Definition secp_k1_192_one : list Z := [0xdb4ff10ec057e9ae26b07d0280b7f4341da5d1b1eae06c7d; 0x9b2f2f6d9c5628a7844163d015be86344082aa88d95e2f9d].
(** secp_k1/256/short_weierstrass_params.hpp:145-147 *)
Definition secp_k1_224_a : Z := 0x0.
(** secp_k1/256/short_weierstrass_params.hpp:148-150 *)
Definition secp_k1_224_b : Z := 0x5.
(** secp_k1/256/short_weierstrass_params.hpp:170-174 *)
Definition secp_k1_224_one : list Z := [0xa1455b334df099df30fc28a169a467e9e47075a90f7e650eb6b7a45c; 0x7e089fed7fba344282cafbd6f7e319f7c0b0bd59e2ca4bdb556d61a5].
(** secp_k1/256/short_weierstrass_params.hpp:195-197 *)
Definition secp_k1_256_a : Z := 0x0.
(** secp_k1/256/short_weierstrass_params.hpp:198-200 *)
Definition secp_k1_256_b : Z := 0x7.
(** secp_k1/256/short_weierstrass_params.hpp:220-224 *)
Definition secp_k1_256_one : list Z := [0x79be667ef9dcbbac55a06295ce870b07029bfcdb2dce28d959f2815b16f81798; 0x483ada7726a3c4655da4fbfc0e1108a8fd17b448a68554199c47d08ffb10d4b8].
(** pallas/params.hpp:50-50 *)
Definition pallas_a : Z := 0x0.
(** pallas/params.hpp:55-55 *)
Definition pallas_b : Z := 0x5.
(** pallas/params.hpp:83-87 *)
Definition pallas_one : list Z := [0x40000000000000000000000000000000224698fc094cf91b992d30ed00000000; 0x2].
(** vesta/params.hpp:51-51 *)
Definition vesta_a : Z := 0x0.
(** vesta/params.hpp:56-56 *)
Definition vesta_b : Z := 0x5.
(** vesta/params.hpp:84-88 *)
Definition vesta_one : list Z := [0x40000000000000000000000000000000224698fc0994a8dd8c46eb2100000000; 0x2].
(** alt_bn128/254/short_weierstrass_params.hpp:46-48 *)
Definition alt_bn128_254_a : Z := 0x0.
(** alt_bn128/254/short_weierstrass_params.hpp:49-51 *)
Definition alt_bn128_254_b : Z := 0x3.
(** alt_bn128/254/short_weierstrass_params.hpp:71-72 *)
Definition alt_bn128_254_g1_one : list Z := [0x1; 0x2].
(** alt_bn128/254/short_weierstrass_params.hpp:98-104 *)
Definition alt_bn128_254_g2_one : list Z := [0x1800deef121f1e76426a00665e5c4479674322d4f75edadd46debd5cd992f6ed; 0x198e9393920d483a7260bfb731fb5d25f1aa493335a9e71297e485b7aef312c2; 0x12c85ea5db8c6deb4aab71808dcb408fe3d1e7690c43d37b4ce6cc0166fa7daa; 0x90689d0585ff075ec9e99ad690c3395bc4b313370b38ef355acdadcd122975b].
(** bls12/381/short_weierstrass_params.hpp:46-48 *)
Definition bls12_381_a : Z := 0x0.
(** bls12/381/short_weierstrass_params.hpp:49-51 *)
Definition bls12_381_b : Z := 0x4.
(** bls12/381/short_weierstrass_params.hpp:71-75 *)
Definition bls12_381_g1_one : list Z := [0x17f1d3a73197d7942695638c4fa9ac0fc3688c4f9774b905a14e3a3f171bac586c55e83ff97a1aeffb3af00adb22c6bb; 0x8b3f481e3aaa0f1a09e30ed741d8ae4fcf5e095d5d00af600db18cb2c04b3edd03cc744a2888ae40caa232946c5e7e1].
(** bls12/381/short_weierstrass_params.hpp:102-108 *)
Definition bls12_381_g2_one : list Z := [0x24aa2b2f08f0a91260805272dc51051c6e47ad4fa403b02b4510b647ae3d1770bac0326a805bbefd48056c8c121bdb8; 0x13e02b6052719f607dacd3a088274f65596bd0d09920b61ab5da61bbdc7f5049334cf11213945d57e5ac7d055d042b7e; 0xce5d527727d6e118cc9cdc6da2e351aadfd9baa8cbdd3a76d429a695160d12c923ac9cc3baca289e193548608b82801; 0x606c4a02ea734cc32acd2b02bc28b99cb3e287e85a763af267492ab572e99ab3f370d275cec1da1aaa9075ff05f79be].
(** bls12/377/short_weierstrass_params.hpp:46-48 *)
Definition bls12_377_a : Z := 0x0.
(** bls12/377/short_weierstrass_params.hpp:49-51 *)
Definition bls12_377_b : Z := 0x1.
(** bls12/377/short_weierstrass_params.hpp:71-75 *)
Definition bls12_377_g1_one : list Z := [0x8848defe740a67c8fc6225bf87ff5485951e2caa9d41bb188282c8bd37cb5cd5481512ffcd394eeab9b16eb21be9ef; 0x1914a69c5102eff1f674f5d30afeec4bd7fb348ca3e52d96d182ad44fb82305c2fe3d3634a9591afd82de55559c8ea6].
(** bls12/377/short_weierstrass_params.hpp:102-108 *)
Definition bls12_377_g2_one : list Z := [0xb997fef930828fe1b9e6a1707b8aa508a3dbfd7fe2246499c709226a0a6fef49f85b3a375363f4f8f6ea3fbd159f8a; 0xd6ac33b84947d9845f81a57a136bfa326e915fabc8cd6a57ff133b42d00f62e4e1af460228cd5184deae976fa62596; 0x118dd509b2e9a13744a507d515a595dbb7e3b63df568866473790184bdf83636c94df2b7a962cb2af4337f07cb7e622; 0x185067c6ca76d992f064a432bd9f9be832b0cac2d824d0518f77d39e76c3e146afb825f2092218d038867d7f337a010].
(** mnt4/298/short_weierstrass_params.hpp:46-48 *)
Definition mnt4_298_a : Z := 0x2.
(** mnt4/298/short_weierstrass_params.hpp:49-51 *)
Definition mnt4_298_b : Z := 0x3545a27639415585ea4d523234fc3edd2a2070a085c7b980f4e9cd21a515d4b0ef528ec0fd5.
(** mnt4/298/short_weierstrass_params.hpp:71-75 *)
Definition mnt4_298_g1_one : list Z := [0x7a2caf82a1ba85213fe6ca3875aee86aba8f73d69060c4079492b948dea216b5b9c8d2af46; 0x2db619461cc82672f7f159fec2e89d0148dcc9862d36778c1afd96a71e29cba48e710a48ab2].
(** mnt4/298/short_weierstrass_params.hpp:111-117 *)
Definition mnt4_298_g2_one : list Z := [0x371780491c5660571ff542f2ef89001f205151e12a72cb14f01a931e72dba7903df6c09a9a4; 0x4ba59a3f72da165def838081af697c851f002f576303302bb6c02c712c968be32c0ae0a989; 0x4b471f33ffaad868a1c47d6605d31e5c4b3b2e0b60ec98f0f610a5aafd0d9522bca4e79f22; 0x355d05a1c69a5031f3f81a5c100cb7d982f78ec9cfc3b5168ed8d75c7c484fb61a3cbf0e0f1].
(** mnt6/298/short_weierstrass_params.hpp:46-48 *)
Definition mnt6_298_a : Z := 0xb.
(** mnt6/298/short_weierstrass_params.hpp:49-51 *)
Definition mnt6_298_b : Z := 0xd68c7b1dc5dd042e957b71c44d3d6c24e683fc09b420b1a2d263fde47ddba59463d0c65282.
(** mnt6/298/short_weierstrass_params.hpp:66-70 *)
Definition mnt6_298_g1_one : list Z := [0x2a4feee24fd2c69d1d90471b2ba61ed56f9bad79b57e0b4c671392584bdadebc01abbc0447d; 0x32986c245f6db2f82f4e037bf7afd69cbfcbff07fc25d71e9c75e1b97208a333d73d91d3028].
(** mnt6/298/short_weierstrass_params.hpp:102-110 *)
Definition mnt6_298_g2_one : list Z := [0x34f7320a12b56ce532bccb3b44902cbaa723cd60035ada7404b743ad2e644ad76257e4c6813; 0xcf41620baa52eec50e61a70ab5b45f681952e0109340fec84f1b2890aba9b15cac5a0c80fa; 0x11f99170e10e326433cccb8032fb48007ca3c4e105cf31b056ac767e2cb01258391bd4917ce; 0x3a65968f03cc64d62ad05c79c415e07ebd38b363ec48309487c0b83e1717a582c1b60fecc91; 0xca5e8427e5db1506c1a24cefc2451ab3accaea5db82dcb0c7117cc74402faa5b2c37685c6e; 0xf75d2dd88302c9a4ef941307629a1b3e197277d83abb715f647c2e55a27baf782f5c60e7f7].
(** alt_bn128/254/short_weierstrass_params.hpp:84-85 *)
Definition alt_bn128_254_g2_twist : list Z := [0x9; 0x1].
(** jubjub/params.hpp:45-47 *)
Definition jubjub_te_a : Z := 0x73eda753299d7d483339d80809a1d80553bda402fffe5bfeffffffff00000000.
(** jubjub/params.hpp:54-56 *)
Definition jubjub_te_d : Z := 0x2a9318e74bfa2b48f5fd9207e6bd7fd4292d7f6d37579d2601065fd6d6343eb1.
(** jubjub/params.hpp:99-103 *)
Definition jubjub_te_one : list Z := [0x11dafe5d23e1218086a365b99fbf3d3be72f6afd7d1f72623e6b071492d1122b; 0x1d523cf1ddab1a1793132e78c866c0c33e26ba5cc220fed7cc3f870e59d292aa].
(** jubjub/params.hpp:75-77 *)
Definition jubjub_mont_A : Z := 0xa002.
(** jubjub/params.hpp:78-80 *)
Definition jubjub_mont_B : Z := 0x1.
(** jubjub/params.hpp:119-123 *)
Definition jubjub_mont_one : list Z := [0x52a47af6ec47deb77d663b6a45b148d1ccdaa4e2299ecfbd5504c409b3ea62c0; 0x399b020832f6a499ba9d5334ca932dc9faaeea860e9a49a8f8854f55f3b676d4].
(** babyjubjub/params.hpp:45-47 *)
Definition babyjubjub_te_a : Z := 0x292fc.
(** babyjubjub/params.hpp:48-50 *)
Definition babyjubjub_te_d : Z := 0x292f8.
(** babyjubjub/params.hpp:86-90 *)
Definition babyjubjub_te_one : list Z := [0xbb77a6ad63e739b4eacb2e09d6277c12ab8d8010534e0b62893f3f6bb957051; 0x25797203f7a0b24925572e1cd16bf9edfce0051fb9e133774b3c257a872d7d8b].
(** babyjubjub/params.hpp:64-66 *)
Definition babyjubjub_mont_A : Z := 0x292fa.
(** babyjubjub/params.hpp:67-69 *)
Definition babyjubjub_mont_B : Z := 0x1.
(** babyjubjub/params.hpp:107-111 *)
Definition babyjubjub_mont_one : list Z := [0xfbc9ac10c16d45d4eacdd6489fa006480b17a811cdba46922896085f89faaf6; 0x203a710160811d5c07ebaeb8fe1d9ce201c66b970d66f18d0d2b264c195309aa].
(** curve25519/params.hpp:86-87 *)
Definition curve25519_te_a : Z := 0x7fffffffffffffffffffffffffffffffffffffffffffffffffffffffffffffec.
(** curve25519/params.hpp:93-94 *)
Definition curve25519_te_d : Z := 0x52036cee2b6ffe738cc740797779e89800700a4d4141d8ab75eb4dca135978a3.
(** curve25519/params.hpp:122-126 *)
Definition curve25519_te_one : list Z := [0x216936d3cd6e53fec0a4e231fdd6dc5c692cc7609525a7b2c9562d608f25d51a; 0x6666666666666666666666666666666666666666666666666666666666666658].
(** curve25519/params.hpp:48-50 *)
Definition curve25519_mont_A : Z := 0x76d06.
(** curve25519/params.hpp:51-53 *)
Definition curve25519_mont_B : Z := 0x1.
(** curve25519/params.hpp:69-72 *)
Definition curve25519_mont_one : list Z := [0x9; 0x20ae19a1b8a086b4e01edd2c7748d14c923d4d7e6d7c61b229e9c5a27eced3d9].
(** edwards/183/edwards_params.hpp:48-50 *)
Definition edwards_183_d : Z := 0x64536d55979879327cf1306bb5a6277d254ef9776ce70.
(** edwards/183/edwards_params.hpp:70-73 *)
Definition edwards_183_g1_inverted_one : list Z := [0x32d83d8aaa0c500f57b15fda90b1ad111067f812c7dd27; 0x26c5df4587aa6a5d345efc9f2d47f8b1656517ef618f7a; 0x3c6395f7eeafc1d930f0234a46e4a4806b953f0c3374ac].
(** edwards/183/edwards_params.hpp:112-121 *)
Definition edwards_183_g2_inverted_one : list Z := [0x3ce954c85ad30f53b1bb4c4f87029780f4141927feb19; 0x2214eb976de3a4d9df9c8d5f7aedfec337e03a20b32fff; 0x249774ab0edc7fe2e665ddbfe08594f3071e0b3ac994c3; 0x2f501f9482c0d0d6e80ac55a79fd4d4594caf187952660; 0x37bf8f1b1cda11a81e8bb8f41b5ff462c9a13dc7de1578; 0x2962f0da0c7928b2cfbbace3d0354652b6922a764c12d8; 0x3b6ad5c355d8b231b16e97b5c6f635357993efdc248101; 0x2e8b3daf5fa18f9d9c6fa2ca0603fd0c9b09eeece8fd0d; 0x3c3baf061e62a04a4e9d1db335b8779c70384ae2933a73].
(** edwards/183/edwards_params.hpp:89-90 *)
Definition edwards_183_g2_twist : list Z := [0x0; 0x1; 0x0].
(** bls12/381/short_weierstrass_params.hpp:84-86: (one, one) *)
Definition bls12_381_g2_twist : list Z := [1; 1].
(** bls12/377/short_weierstrass_params.hpp:87-89: (zero, one) *)
Definition bls12_377_g2_twist : list Z := [0; 1].
(** edwards/183/twisted_edwards_params.hpp:44-45 *)
Definition edwards_183_a : Z := 1.

(** A short Weierstrass g1: modulus of base_field_type, coefficients, one_fill,
    modulus of scalar_field_type (curves/detail/<curve>/types.hpp) *)
Record sw_curve := mkSW { swc_p : Z; swc_a : Z; swc_b : Z; swc_one : list Z; swc_r : Z }.
(** curves/detail/<curve>/short_weierstrass_params.hpp: the values above, each with its lines *)
Definition shipped_sw_g1 : list sw_curve := [
  mkSW secp_r1_base_field_160_modulus secp_r1_160_a secp_r1_160_b secp_r1_160_one secp_r1_scalar_field_160_modulus;
  mkSW secp_r1_base_field_192_modulus secp_r1_192_a secp_r1_192_b secp_r1_192_one secp_r1_scalar_field_192_modulus;
  mkSW secp_r1_base_field_224_modulus secp_r1_224_a secp_r1_224_b secp_r1_224_one secp_r1_scalar_field_224_modulus;
  mkSW secp_r1_base_field_256_modulus secp_r1_256_a secp_r1_256_b secp_r1_256_one secp_r1_scalar_field_256_modulus;
  mkSW secp_r1_base_field_384_modulus secp_r1_384_a secp_r1_384_b secp_r1_384_one secp_r1_scalar_field_384_modulus;
  mkSW secp_r1_base_field_521_modulus secp_r1_521_a secp_r1_521_b secp_r1_521_one secp_r1_scalar_field_521_modulus;
  mkSW secp_k1_base_field_160_modulus secp_k1_160_a secp_k1_160_b secp_k1_160_one secp_k1_scalar_field_160_modulus;
  mkSW secp_k1_base_field_192_modulus secp_k1_192_a secp_k1_192_b secp_k1_192_one secp_k1_scalar_field_192_modulus;
  mkSW secp_k1_base_field_224_modulus secp_k1_224_a secp_k1_224_b secp_k1_224_one secp_k1_scalar_field_224_modulus;
  mkSW secp_k1_base_field_256_modulus secp_k1_256_a secp_k1_256_b secp_k1_256_one secp_k1_scalar_field_256_modulus;
  mkSW pallas_base_field_modulus pallas_a pallas_b pallas_one vesta_base_field_modulus;
  mkSW vesta_base_field_modulus vesta_a vesta_b vesta_one pallas_base_field_modulus;
  mkSW alt_bn128_base_field_254_modulus alt_bn128_254_a alt_bn128_254_b alt_bn128_254_g1_one alt_bn128_scalar_field_254_modulus;
  mkSW bls12_base_field_381_modulus bls12_381_a bls12_381_b bls12_381_g1_one bls12_scalar_field_381_modulus;
  mkSW bls12_base_field_377_modulus bls12_377_a bls12_377_b bls12_377_g1_one bls12_scalar_field_377_modulus;
  mkSW mnt4_base_field_298_modulus mnt4_298_a mnt4_298_b mnt4_298_g1_one mnt6_base_field_298_modulus;
  mkSW mnt6_base_field_298_modulus mnt6_298_a mnt6_298_b mnt6_298_g1_one mnt4_base_field_298_modulus].

(** twisted Edwards g1 *)
(** curves/detail/{jubjub,babyjubjub,curve25519}/params.hpp, lines cited at each value above *)
Record te_curve := mkTE { tec_p : Z; tec_a : Z; tec_d : Z; tec_one : list Z; tec_r : Z }.
(** curves/detail/{jubjub,babyjubjub,curve25519}/params.hpp, lines cited at each value above *)
Definition shipped_te_g1 : list te_curve := [
  mkTE bls12_scalar_field_381_modulus jubjub_te_a jubjub_te_d jubjub_te_one jubjub_scalar_field_modulus;
  mkTE alt_bn128_scalar_field_254_modulus babyjubjub_te_a babyjubjub_te_d babyjubjub_te_one babyjubjub_scalar_field_modulus;
  mkTE curve25519_base_field_modulus curve25519_te_a curve25519_te_d curve25519_te_one curve25519_scalar_field_modulus].

(** Montgomery g1 *)
(** curves/detail/{jubjub,babyjubjub,curve25519}/params.hpp, lines cited at each value above *)
Record mont_curve := mkMC { mc_p : Z; mc_A : Z; mc_B : Z; mc_one : list Z; mc_r : Z }.
(** curves/detail/{jubjub,babyjubjub,curve25519}/params.hpp, lines cited at each value above *)
Definition shipped_mont_g1 : list mont_curve := [
  mkMC bls12_scalar_field_381_modulus jubjub_mont_A jubjub_mont_B jubjub_mont_one jubjub_scalar_field_modulus;
  mkMC alt_bn128_scalar_field_254_modulus babyjubjub_mont_A babyjubjub_mont_B babyjubjub_mont_one babyjubjub_scalar_field_modulus;
  mkMC curve25519_base_field_modulus curve25519_mont_A curve25519_mont_B curve25519_mont_one curve25519_scalar_field_modulus].
