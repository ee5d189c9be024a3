(** Generated primality certificates (Pocklington with partial factorisations;
    trial division below 10^6).  Moduli of the pairing-friendly fields. *)
From Coq Require Import ZArith Znumtheory List.
From Verif Require Import Proof.Pocklington.
Import ListNotations.
Local Open Scope Z_scope.

(** fields/alt_bn128/base_field.hpp:57 *)
Lemma pr_3 : prime 3.
Proof. apply small_prime_sound. vm_cast_no_check (eq_refl true). Qed.
Lemma pr_13 : prime 13.
Proof. apply small_prime_sound. vm_cast_no_check (eq_refl true). Qed.
Lemma pr_29 : prime 29.
Proof. apply small_prime_sound. vm_cast_no_check (eq_refl true). Qed.
Lemma pr_67 : prime 67.
Proof. apply small_prime_sound. vm_cast_no_check (eq_refl true). Qed.
Lemma pr_229 : prime 229.
Proof. apply small_prime_sound. vm_cast_no_check (eq_refl true). Qed.
Lemma pr_311 : prime 311.
Proof. apply small_prime_sound. vm_cast_no_check (eq_refl true). Qed.
Lemma pr_983 : prime 983.
Proof. apply small_prime_sound. vm_cast_no_check (eq_refl true). Qed.
Lemma pr_11003 : prime 11003.
Proof. apply small_prime_sound. vm_cast_no_check (eq_refl true). Qed.
Lemma pr_3691 : prime 3691.
Proof. apply small_prime_sound. vm_cast_no_check (eq_refl true). Qed.
Lemma pr29_5928799 : prime 405928799.
Proof.
  apply (pock_check_sound _ [(3691,1,2)] 2938).
  - vm_cast_no_check (eq_refl true).
  - refine (Forall_cons (3691,1,2) pr_3691 (Forall_nil _)).
Qed.
Lemma prime_alt_bn128_base_field_254 : prime 21888242871839275222246405745257275088696311157297823662689037894645226208583.
Proof.
  apply (pock_check_sound _ [(3,2,3); (13,1,2); (29,1,2); (67,1,2); (229,1,2); (311,1,2); (983,1,2); (11003,1,2); (405928799,1,2)] 22096302493773734916895368).
  - vm_cast_no_check (eq_refl true).
  - refine (Forall_cons (3,2,3) pr_3 (Forall_cons (13,1,2) pr_13 (Forall_cons (29,1,2) pr_29 (Forall_cons (67,1,2) pr_67 (Forall_cons (229,1,2) pr_229 (Forall_cons (311,1,2) pr_311 (Forall_cons (983,1,2) pr_983 (Forall_cons (11003,1,2) pr_11003 (Forall_cons (405928799,1,2) pr29_5928799 (Forall_nil _)))))))))).
Qed.
(** fields/alt_bn128/scalar_field.hpp:59 *)
Lemma pr_2 : prime 2.
Proof. apply small_prime_sound. vm_cast_no_check (eq_refl true). Qed.
Lemma pr_237073 : prime 237073.
Proof. apply small_prime_sound. vm_cast_no_check (eq_refl true). Qed.
Lemma prime_alt_bn128_scalar_field_254 : prime 21888242871839275222246405745257275088548364400416034343698204186575808495617.
Proof.
  apply (pock_check_sound _ [(2,28,5); (11003,1,2); (237073,1,2); (405928799,1,2)] 34878429326618942231134306).
  - vm_cast_no_check (eq_refl true).
  - refine (Forall_cons (2,28,5) pr_2 (Forall_cons (11003,1,2) pr_11003 (Forall_cons (237073,1,2) pr_237073 (Forall_cons (405928799,1,2) pr29_5928799 (Forall_nil _))))).
Qed.
(** fields/bls12/base_field.hpp:61 *)
Lemma pr_421987 : prime 421987.
Proof. apply small_prime_sound. vm_cast_no_check (eq_refl true). Qed.
Lemma pr34_90036741 : prime 13090036741.
Proof.
  apply (pock_check_sound _ [(421987,1,2)] 0).
  - vm_cast_no_check (eq_refl true).
  - refine (Forall_cons (421987,1,2) pr_421987 (Forall_nil _)).
Qed.
Lemma pr72_18131021 : prime 3819663927398918131021.
Proof.
  apply (pock_check_sound _ [(13090036741,1,2)] 3818519917).
  - vm_cast_no_check (eq_refl true).
  - refine (Forall_cons (13090036741,1,2) pr34_90036741 (Forall_nil _)).
Qed.
Lemma pr120_86709967 : prime 1125266252156850182658904441386709967.
Proof.
  apply (pock_check_sound _ [(3819663927398918131021,1,2)] 0).
  - vm_cast_no_check (eq_refl true).
  - refine (Forall_cons (3819663927398918131021,1,2) pr72_18131021 (Forall_nil _)).
Qed.
Lemma pr234_27714659 : prime 15778400344354997994418419698270088123916926905054652752758194827714659.
Proof.
  apply (pock_check_sound _ [(1125266252156850182658904441386709967,1,2)] 0).
  - vm_cast_no_check (eq_refl true).
  - refine (Forall_cons (1125266252156850182658904441386709967,1,2) pr120_86709967 (Forall_nil _)).
Qed.
Lemma prime_bls12_base_field_381 : prime 4002409555221667393417789825735904156556882819939007885332058136124031650490837864442687629129015664037894272559787.
Proof.
  apply (pock_check_sound _ [(15778400344354997994418419698270088123916926905054652752758194827714659,1,2)] 0).
  - vm_cast_no_check (eq_refl true).
  - refine (Forall_cons (15778400344354997994418419698270088123916926905054652752758194827714659,1,2) pr234_27714659 (Forall_nil _)).
Qed.
(** fields/bls12/base_field.hpp:94 *)
Lemma pr_408971 : prime 408971.
Proof. apply small_prime_sound. vm_cast_no_check (eq_refl true). Qed.
Lemma pr33_77599223 : prime 4777599223.
Proof.
  apply (pock_check_sound _ [(408971,1,2)] 0).
  - vm_cast_no_check (eq_refl true).
  - refine (Forall_cons (408971,1,2) pr_408971 (Forall_nil _)).
Qed.
Lemma pr93_26602799 : prime 7880826209898991662826602799.
Proof.
  apply (pock_check_sound _ [(4777599223,1,2)] 2072159949).
  - vm_cast_no_check (eq_refl true).
  - refine (Forall_cons (4777599223,1,2) pr33_77599223 (Forall_nil _)).
Qed.
Lemma pr226_90956181 : prime 73387170334035996766247648424745786170238574695861388454532790956181.
Proof.
  apply (pock_check_sound _ [(7880826209898991662826602799,1,2)] 6287152941293159269797420975).
  - vm_cast_no_check (eq_refl true).
  - refine (Forall_cons (7880826209898991662826602799,1,2) pr93_26602799 (Forall_nil _)).
Qed.
Lemma prime_bls12_base_field_377 : prime 258664426012969094010652733694893533536393512754914660539884262666720468348340822774968888139573360124440321458177.
Proof.
  apply (pock_check_sound _ [(73387170334035996766247648424745786170238574695861388454532790956181,1,2)] 0).
  - vm_cast_no_check (eq_refl true).
  - refine (Forall_cons (73387170334035996766247648424745786170238574695861388454532790956181,1,2) pr226_90956181 (Forall_nil _)).
Qed.
(** fields/bls12/scalar_field.hpp:63 *)
Lemma pr_10177 : prime 10177.
Proof. apply small_prime_sound. vm_cast_no_check (eq_refl true). Qed.
Lemma pr_125527 : prime 125527.
Proof. apply small_prime_sound. vm_cast_no_check (eq_refl true). Qed.
Lemma pr_859267 : prime 859267.
Proof. apply small_prime_sound. vm_cast_no_check (eq_refl true). Qed.
Lemma pr_906349 : prime 906349.
Proof. apply small_prime_sound. vm_cast_no_check (eq_refl true). Qed.
Lemma prime_bls12_scalar_field_381 : prime 52435875175126190479447740508185965837690552500527637822603658699938581184513.
Proof.
  apply (pock_check_sound _ [(10177,1,2); (125527,1,2); (859267,1,2); (906349,2,2)] 581779208102969757581449364).
  - vm_cast_no_check (eq_refl true).
  - refine (Forall_cons (10177,1,2) pr_10177 (Forall_cons (125527,1,2) pr_125527 (Forall_cons (859267,1,2) pr_859267 (Forall_cons (906349,2,2) pr_906349 (Forall_nil _))))).
Qed.
(** fields/bls12/scalar_field.hpp:96 *)
Lemma pr_126397 : prime 126397.
Proof. apply small_prime_sound. vm_cast_no_check (eq_refl true). Qed.
Lemma pr31_32756501 : prime 1832756501.
Proof.
  apply (pock_check_sound _ [(126397,1,2)] 0).
  - vm_cast_no_check (eq_refl true).
  - refine (Forall_cons (126397,1,2) pr_126397 (Forall_nil _)).
Qed.
Lemma pr46_25527001 : prime 49484425527001.
Proof.
  apply (pock_check_sound _ [(1832756501,1,2)] 0).
  - vm_cast_no_check (eq_refl true).
  - refine (Forall_cons (1832756501,1,2) pr31_32756501 (Forall_nil _)).
Qed.
Lemma pr60_9063373 : prime 958612291309063373.
Proof.
  apply (pock_check_sound _ [(49484425527001,1,2)] 0).
  - vm_cast_no_check (eq_refl true).
  - refine (Forall_cons (49484425527001,1,2) pr46_25527001 (Forall_nil _)).
Qed.
Lemma prime_bls12_scalar_field_377 : prime 8444461749428370424248824938781546531375899335154063827935233455917409239041.
Proof.
  apply (pock_check_sound _ [(2,47,11); (958612291309063373,1,2)] 0).
  - vm_cast_no_check (eq_refl true).
  - refine (Forall_cons (2,47,11) pr_2 (Forall_cons (958612291309063373,1,2) pr60_9063373 (Forall_nil _))).
Qed.
(** fields/edwards/base_field.hpp:59 *)
Lemma pr_5 : prime 5.
Proof. apply small_prime_sound. vm_cast_no_check (eq_refl true). Qed.
Lemma pr_7 : prime 7.
Proof. apply small_prime_sound. vm_cast_no_check (eq_refl true). Qed.
Lemma pr_17 : prime 17.
Proof. apply small_prime_sound. vm_cast_no_check (eq_refl true). Qed.
Lemma pr_53 : prime 53.
Proof. apply small_prime_sound. vm_cast_no_check (eq_refl true). Qed.
Lemma prime_edwards_base_field_183 : prime 6210044120409721004947206240885978274523751269793792001.
Proof.
  apply (pock_check_sound _ [(2,31,23); (3,2,3); (5,3,2); (7,2,2); (17,1,2); (29,1,2); (53,1,2)] 2034606626327197962).
  - vm_cast_no_check (eq_refl true).
  - refine (Forall_cons (2,31,23) pr_2 (Forall_cons (3,2,3) pr_3 (Forall_cons (5,3,2) pr_5 (Forall_cons (7,2,2) pr_7 (Forall_cons (17,1,2) pr_17 (Forall_cons (29,1,2) pr_29 (Forall_cons (53,1,2) pr_53 (Forall_nil _)))))))).
Qed.
(** fields/edwards/scalar_field.hpp:59 *)
Lemma pr_131 : prime 131.
Proof. apply small_prime_sound. vm_cast_no_check (eq_refl true). Qed.
Lemma pr_478901 : prime 478901.
Proof. apply small_prime_sound. vm_cast_no_check (eq_refl true). Qed.
Lemma pr83_69394577 : prime 5679531856541001669394577.
Proof.
  apply (pock_check_sound _ [(7,2,3); (131,1,2); (478901,1,2)] 1135500199).
  - vm_cast_no_check (eq_refl true).
  - refine (Forall_cons (7,2,3) pr_7 (Forall_cons (131,1,2) pr_131 (Forall_cons (478901,1,2) pr_478901 (Forall_nil _)))).
Qed.
Lemma prime_edwards_scalar_field_183 : prime 1552511030102430251236801561344621993261920897571225601.
Proof.
  apply (pock_check_sound _ [(5679531856541001669394577,1,2)] 1747548263551077436736366).
  - vm_cast_no_check (eq_refl true).
  - refine (Forall_cons (5679531856541001669394577,1,2) pr83_69394577 (Forall_nil _)).
Qed.
(** fields/mnt4/base_field.hpp:59 *)
Lemma pr_22013 : prime 22013.
Proof. apply small_prime_sound. vm_cast_no_check (eq_refl true). Qed.
Lemma pr_46755613 : prime 46755613.
Proof.
  apply (pock_check_sound _ [(22013,1,2)] 0).
  - vm_cast_no_check (eq_refl true).
  - refine (Forall_cons (22013,1,2) pr_22013 (Forall_nil _)).
Qed.
Lemma pr35_4125999 : prime 30204125999.
Proof.
  apply (pock_check_sound _ [(46755613,1,2)] 0).
  - vm_cast_no_check (eq_refl true).
  - refine (Forall_cons (46755613,1,2) pr_46755613 (Forall_nil _)).
Qed.
Lemma pr68_89060287 : prime 215503530768389060287.
Proof.
  apply (pock_check_sound _ [(30204125999,1,2)] 0).
  - vm_cast_no_check (eq_refl true).
  - refine (Forall_cons (30204125999,1,2) pr35_4125999 (Forall_nil _)).
Qed.
Lemma pr90_77929423 : prime 688987631240801274977929423.
Proof.
  apply (pock_check_sound _ [(215503530768389060287,1,2)] 0).
  - vm_cast_no_check (eq_refl true).
  - refine (Forall_cons (215503530768389060287,1,2) pr68_89060287 (Forall_nil _)).
Qed.
Lemma pr120_97921187 : prime 832668823862928114206893884097921187.
Proof.
  apply (pock_check_sound _ [(688987631240801274977929423,1,2)] 0).
  - vm_cast_no_check (eq_refl true).
  - refine (Forall_cons (688987631240801274977929423,1,2) pr90_77929423 (Forall_nil _)).
Qed.
Lemma prime_mnt4_base_field_298 : prime 475922286169261325753349249653048451545124879242694725395555128576210262817955800483758081.
Proof.
  apply (pock_check_sound _ [(832668823862928114206893884097921187,1,2)] 0).
  - vm_cast_no_check (eq_refl true).
  - refine (Forall_cons (832668823862928114206893884097921187,1,2) pr120_97921187 (Forall_nil _)).
Qed.
(** fields/mnt6/base_field.hpp:59 *)
Lemma prime_mnt6_base_field_298 : prime 475922286169261325753349249653048451545124878552823515553267735739164647307408490559963137.
Proof.
  apply (pock_check_sound _ [(832668823862928114206893884097921187,2,2)] 0).
  - vm_cast_no_check (eq_refl true).
  - refine (Forall_cons (832668823862928114206893884097921187,2,2) pr120_97921187 (Forall_nil _)).
Qed.
