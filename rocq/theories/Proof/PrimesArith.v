(** Generated certificates: the prime factors of p - 1 for the fields with
    arithmetic_params, the primes used to bound the order of geometric_generator, and
    the orders of the DSA groups (Pocklington, trial division below 10^6). *)
From Coq Require Import ZArith Znumtheory List.
From Verif Require Import Model.ArithmeticParams Proof.Pocklington.
Import ListNotations.
Local Open Scope Z_scope.

Lemma pa_2 : prime 2.
Proof. apply small_prime_sound. vm_cast_no_check (eq_refl true). Qed.
Lemma pa_3 : prime 3.
Proof. apply small_prime_sound. vm_cast_no_check (eq_refl true). Qed.
Lemma pa_5 : prime 5.
Proof. apply small_prime_sound. vm_cast_no_check (eq_refl true). Qed.
Lemma pa_7 : prime 7.
Proof. apply small_prime_sound. vm_cast_no_check (eq_refl true). Qed.
Lemma pa_11 : prime 11.
Proof. apply small_prime_sound. vm_cast_no_check (eq_refl true). Qed.
Lemma pa_13 : prime 13.
Proof. apply small_prime_sound. vm_cast_no_check (eq_refl true). Qed.
Lemma pa_17 : prime 17.
Proof. apply small_prime_sound. vm_cast_no_check (eq_refl true). Qed.
Lemma pa_19 : prime 19.
Proof. apply small_prime_sound. vm_cast_no_check (eq_refl true). Qed.
Lemma pa_23 : prime 23.
Proof. apply small_prime_sound. vm_cast_no_check (eq_refl true). Qed.
Lemma pa_29 : prime 29.
Proof. apply small_prime_sound. vm_cast_no_check (eq_refl true). Qed.
Lemma pa_47 : prime 47.
Proof. apply small_prime_sound. vm_cast_no_check (eq_refl true). Qed.
Lemma pa_53 : prime 53.
Proof. apply small_prime_sound. vm_cast_no_check (eq_refl true). Qed.
Lemma pa_67 : prime 67.
Proof. apply small_prime_sound. vm_cast_no_check (eq_refl true). Qed.
Lemma pa_79 : prime 79.
Proof. apply small_prime_sound. vm_cast_no_check (eq_refl true). Qed.
Lemma pa_113 : prime 113.
Proof. apply small_prime_sound. vm_cast_no_check (eq_refl true). Qed.
Lemma pa_229 : prime 229.
Proof. apply small_prime_sound. vm_cast_no_check (eq_refl true). Qed.
Lemma pa_257 : prime 257.
Proof. apply small_prime_sound. vm_cast_no_check (eq_refl true). Qed.
Lemma pa_263 : prime 263.
Proof. apply small_prime_sound. vm_cast_no_check (eq_refl true). Qed.
Lemma pa_311 : prime 311.
Proof. apply small_prime_sound. vm_cast_no_check (eq_refl true). Qed.
Lemma pa_409 : prime 409.
Proof. apply small_prime_sound. vm_cast_no_check (eq_refl true). Qed.
Lemma pa_463 : prime 463.
Proof. apply small_prime_sound. vm_cast_no_check (eq_refl true). Qed.
Lemma pa_499 : prime 499.
Proof. apply small_prime_sound. vm_cast_no_check (eq_refl true). Qed.
Lemma pa_983 : prime 983.
Proof. apply small_prime_sound. vm_cast_no_check (eq_refl true). Qed.
Lemma pa_1021 : prime 1021.
Proof. apply small_prime_sound. vm_cast_no_check (eq_refl true). Qed.
Lemma pa_1709 : prime 1709.
Proof. apply small_prime_sound. vm_cast_no_check (eq_refl true). Qed.
Lemma pa_2557 : prime 2557.
Proof. apply small_prime_sound. vm_cast_no_check (eq_refl true). Qed.
Lemma pa_10177 : prime 10177.
Proof. apply small_prime_sound. vm_cast_no_check (eq_refl true). Qed.
Lemma pa_11003 : prime 11003.
Proof. apply small_prime_sound. vm_cast_no_check (eq_refl true). Qed.
Lemma pa_24859 : prime 24859.
Proof. apply small_prime_sound. vm_cast_no_check (eq_refl true). Qed.
Lemma pa_65537 : prime 65537.
Proof. apply small_prime_sound. vm_cast_no_check (eq_refl true). Qed.
Lemma pa_125527 : prime 125527.
Proof. apply small_prime_sound. vm_cast_no_check (eq_refl true). Qed.
Lemma pa_237073 : prime 237073.
Proof. apply small_prime_sound. vm_cast_no_check (eq_refl true). Qed.
Lemma pa_859267 : prime 859267.
Proof. apply small_prime_sound. vm_cast_no_check (eq_refl true). Qed.
Lemma pa_906349 : prime 906349.
Proof. apply small_prime_sound. vm_cast_no_check (eq_refl true). Qed.
Lemma pa22_2508409 : prime 2508409.
Proof.
  apply (pock_check_sound _ [(2,3,11);(3,4,2)] 630).
  - vm_cast_no_check (eq_refl true).
  - exact (Forall_cons (2,3,11) pa_2 (Forall_cons (3,4,2) pa_3 (Forall_nil _))).
Qed.
Lemma pa_18329 : prime 18329.
Proof. apply small_prime_sound. vm_cast_no_check (eq_refl true). Qed.
Lemma pa22_2529403 : prime 2529403.
Proof.
  apply (pock_check_sound _ [(18329,1,2)] 0).
  - vm_cast_no_check (eq_refl true).
  - exact (Forall_cons (18329,1,2) pa_18329 (Forall_nil _)).
Qed.
Lemma pa_609743 : prime 609743.
Proof. apply small_prime_sound. vm_cast_no_check (eq_refl true). Qed.
Lemma pa26_52437899 : prime 52437899.
Proof.
  apply (pock_check_sound _ [(609743,1,2)] 0).
  - vm_cast_no_check (eq_refl true).
  - exact (Forall_cons (609743,1,2) pa_609743 (Forall_nil _)).
Qed.
Lemma pa_110573 : prime 110573.
Proof. apply small_prime_sound. vm_cast_no_check (eq_refl true). Qed.
Lemma pa22_2653753 : prime 2653753.
Proof.
  apply (pock_check_sound _ [(110573,1,2)] 0).
  - vm_cast_no_check (eq_refl true).
  - exact (Forall_cons (110573,1,2) pa_110573 (Forall_nil _)).
Qed.
Lemma pa26_63690073 : prime 63690073.
Proof.
  apply (pock_check_sound _ [(2653753,1,2)] 0).
  - vm_cast_no_check (eq_refl true).
  - exact (Forall_cons (2653753,1,2) pa22_2653753 (Forall_nil _)).
Qed.
Lemma pa28_54760293 : prime 254760293.
Proof.
  apply (pock_check_sound _ [(63690073,1,2)] 0).
  - vm_cast_no_check (eq_refl true).
  - exact (Forall_cons (63690073,1,2) pa26_63690073 (Forall_nil _)).
Qed.
Lemma pa_3691 : prime 3691.
Proof. apply small_prime_sound. vm_cast_no_check (eq_refl true). Qed.
Lemma pa29_5928799 : prime 405928799.
Proof.
  apply (pock_check_sound _ [(3691,1,2)] 2938).
  - vm_cast_no_check (eq_refl true).
  - exact (Forall_cons (3691,1,2) pa_3691 (Forall_nil _)).
Qed.
Lemma pa_327599 : prime 327599.
Proof. apply small_prime_sound. vm_cast_no_check (eq_refl true). Qed.
Lemma pa34_65965001 : prime 11465965001.
Proof.
  apply (pock_check_sound _ [(327599,1,2)] 0).
  - vm_cast_no_check (eq_refl true).
  - exact (Forall_cons (327599,1,2) pa_327599 (Forall_nil _)).
Qed.
Lemma pa_78541 : prime 78541.
Proof. apply small_prime_sound. vm_cast_no_check (eq_refl true). Qed.
Lemma pa35_74738817 : prime 19774738817.
Proof.
  apply (pock_check_sound _ [(78541,1,2)] 16152).
  - vm_cast_no_check (eq_refl true).
  - exact (Forall_cons (78541,1,2) pa_78541 (Forall_nil _)).
Qed.
Lemma pa40_90597413 : prime 711890597413.
Proof.
  apply (pock_check_sound _ [(19774738817,1,2)] 0).
  - vm_cast_no_check (eq_refl true).
  - exact (Forall_cons (19774738817,1,2) pa35_74738817 (Forall_nil _)).
Qed.
Lemma pa_93001 : prime 93001.
Proof. apply small_prime_sound. vm_cast_no_check (eq_refl true). Qed.
Lemma pa34_48837557 : prime 12048837557.
Proof.
  apply (pock_check_sound _ [(93001,1,2)] 36554).
  - vm_cast_no_check (eq_refl true).
  - exact (Forall_cons (93001,1,2) pa_93001 (Forall_nil _)).
Qed.
Lemma pa43_2474397 : prime 5156902474397.
Proof.
  apply (pock_check_sound _ [(12048837557,1,2)] 0).
  - vm_cast_no_check (eq_refl true).
  - exact (Forall_cons (12048837557,1,2) pa34_48837557 (Forall_nil _)).
Qed.
Lemma pa51_1704629 : prime 1670836401704629.
Proof.
  apply (pock_check_sound _ [(5156902474397,1,2)] 0).
  - vm_cast_no_check (eq_refl true).
  - exact (Forall_cons (5156902474397,1,2) pa43_2474397 (Forall_nil _)).
Qed.
Lemma pa_243167 : prime 243167.
Proof. apply small_prime_sound. vm_cast_no_check (eq_refl true). Qed.
Lemma pa51_80381357 : prime 1682846480381357.
Proof.
  apply (pock_check_sound _ [(243167,1,2)] 5237).
  - vm_cast_no_check (eq_refl true).
  - exact (Forall_cons (243167,1,2) pa_243167 (Forall_nil _)).
Qed.
Lemma pa_126397 : prime 126397.
Proof. apply small_prime_sound. vm_cast_no_check (eq_refl true). Qed.
Lemma pa31_32756501 : prime 1832756501.
Proof.
  apply (pock_check_sound _ [(126397,1,2)] 0).
  - vm_cast_no_check (eq_refl true).
  - exact (Forall_cons (126397,1,2) pa_126397 (Forall_nil _)).
Qed.
Lemma pa46_25527001 : prime 49484425527001.
Proof.
  apply (pock_check_sound _ [(1832756501,1,2)] 0).
  - vm_cast_no_check (eq_refl true).
  - exact (Forall_cons (1832756501,1,2) pa31_32756501 (Forall_nil _)).
Qed.
Lemma pa60_9063373 : prime 958612291309063373.
Proof.
  apply (pock_check_sound _ [(49484425527001,1,2)] 0).
  - vm_cast_no_check (eq_refl true).
  - exact (Forall_cons (49484425527001,1,2) pa46_25527001 (Forall_nil _)).
Qed.
Lemma pa_25537 : prime 25537.
Proof. apply small_prime_sound. vm_cast_no_check (eq_refl true). Qed.
Lemma pa_47521 : prime 47521.
Proof. apply small_prime_sound. vm_cast_no_check (eq_refl true). Qed.
Lemma pa63_29891813 : prime 6633514200929891813.
Proof.
  apply (pock_check_sound _ [(25537,1,2);(47521,1,2)] 612058847).
  - vm_cast_no_check (eq_refl true).
  - exact (Forall_cons (25537,1,2) pa_25537 (Forall_cons (47521,1,2) pa_47521 (Forall_nil _))).
Qed.
Lemma pa64_90633729 : prime 9586122913090633729.
Proof.
  apply (pock_check_sound _ [(2,46,11)] 0).
  - vm_cast_no_check (eq_refl true).
  - exact (Forall_cons (2,46,11) pa_2 (Forall_nil _)).
Qed.
Lemma pa_14923 : prime 14923.
Proof. apply small_prime_sound. vm_cast_no_check (eq_refl true). Qed.
Lemma pa69_71846773 : prime 539204044132271846773.
Proof.
  apply (pock_check_sound _ [(2,2,2);(3,5,3);(14923,1,2)] 4900163).
  - vm_cast_no_check (eq_refl true).
  - exact (Forall_cons (2,2,2) pa_2 (Forall_cons (3,5,3) pa_3 (Forall_cons (14923,1,2) pa_14923 (Forall_nil _)))).
Qed.
Lemma pa_582767 : prime 582767.
Proof. apply small_prime_sound. vm_cast_no_check (eq_refl true). Qed.
Lemma pa44_13673901 : prime 9272813673901.
Proof.
  apply (pock_check_sound _ [(582767,1,2)] 176990).
  - vm_cast_no_check (eq_refl true).
  - exact (Forall_cons (582767,1,2) pa_582767 (Forall_nil _)).
Qed.
Lemma pa51_44171409 : prime 1928745244171409.
Proof.
  apply (pock_check_sound _ [(9272813673901,1,2)] 0).
  - vm_cast_no_check (eq_refl true).
  - exact (Forall_cons (9272813673901,1,2) pa44_13673901 (Forall_nil _)).
Qed.
Lemma pa63_61183477 : prime 7259797099061183477.
Proof.
  apply (pock_check_sound _ [(1928745244171409,1,2)] 0).
  - vm_cast_no_check (eq_refl true).
  - exact (Forall_cons (1928745244171409,1,2) pa51_44171409 (Forall_nil _)).
Qed.
Lemma pa72_81317813 : prime 2584487767265781317813.
Proof.
  apply (pock_check_sound _ [(7259797099061183477,1,2)] 0).
  - vm_cast_no_check (eq_refl true).
  - exact (Forall_cons (7259797099061183477,1,2) pa63_61183477 (Forall_nil _)).
Qed.
Lemma pa_958679 : prime 958679.
Proof. apply small_prime_sound. vm_cast_no_check (eq_refl true). Qed.
Lemma pa32_29989133 : prime 4129989133.
Proof.
  apply (pock_check_sound _ [(958679,1,2)] 0).
  - vm_cast_no_check (eq_refl true).
  - exact (Forall_cons (958679,1,2) pa_958679 (Forall_nil _)).
Qed.
Lemma pa81_45941507 : prime 1690502597179744445941507.
Proof.
  apply (pock_check_sound _ [(4129989133,1,2)] 516810651).
  - vm_cast_no_check (eq_refl true).
  - exact (Forall_cons (4129989133,1,2) pa32_29989133 (Forall_nil _)).
Qed.
Lemma pa_478901 : prime 478901.
Proof. apply small_prime_sound. vm_cast_no_check (eq_refl true). Qed.
Lemma pa83_69394577 : prime 5679531856541001669394577.
Proof.
  apply (pock_check_sound _ [(2,4,3);(7,2,3);(478901,1,2)] 86444404).
  - vm_cast_no_check (eq_refl true).
  - exact (Forall_cons (2,4,3) pa_2 (Forall_cons (7,2,3) pa_7 (Forall_cons (478901,1,2) pa_478901 (Forall_nil _)))).
Qed.
Lemma pa_379 : prime 379.
Proof. apply small_prime_sound. vm_cast_no_check (eq_refl true). Qed.
Lemma pa_1637 : prime 1637.
Proof. apply small_prime_sound. vm_cast_no_check (eq_refl true). Qed.
Lemma pa56_1877903 : prime 65865678001877903.
Proof.
  apply (pock_check_sound _ [(379,1,2);(1637,1,2)] 93471).
  - vm_cast_no_check (eq_refl true).
  - exact (Forall_cons (379,1,2) pa_379 (Forall_cons (1637,1,2) pa_1637 (Forall_nil _))).
Qed.
Lemma pa94_69338081 : prime 13818364434197438864469338081.
Proof.
  apply (pock_check_sound _ [(65865678001877903,1,2)] 0).
  - vm_cast_no_check (eq_refl true).
  - exact (Forall_cons (65865678001877903,1,2) pa56_1877903 (Forall_nil _)).
Qed.
Lemma pa_31649 : prime 31649.
Proof. apply small_prime_sound. vm_cast_no_check (eq_refl true). Qed.
Lemma pa43_47429827 : prime 5239247429827.
Proof.
  apply (pock_check_sound _ [(31649,1,2)] 18003).
  - vm_cast_no_check (eq_refl true).
  - exact (Forall_cons (31649,1,2) pa_31649 (Forall_nil _)).
Qed.
Lemma pa114_99072717 : prime 10427374428728808478656897599072717.
Proof.
  apply (pock_check_sound _ [(5239247429827,1,2)] 4567356564066).
  - vm_cast_no_check (eq_refl true).
  - exact (Forall_cons (5239247429827,1,2) pa43_47429827 (Forall_nil _)).
Qed.
Lemma pa_3557 : prime 3557.
Proof. apply small_prime_sound. vm_cast_no_check (eq_refl true). Qed.
Lemma pa31_63766531 : prime 1263766531.
Proof.
  apply (pock_check_sound _ [(3557,1,2)] 3146).
  - vm_cast_no_check (eq_refl true).
  - exact (Forall_cons (3557,1,2) pa_3557 (Forall_nil _)).
Qed.
Lemma pa36_85462869 : prime 35385462869.
Proof.
  apply (pock_check_sound _ [(1263766531,1,2)] 0).
  - vm_cast_no_check (eq_refl true).
  - exact (Forall_cons (1263766531,1,2) pa31_63766531 (Forall_nil _)).
Qed.
Lemma pa52_1745591 : prime 2480874801745591.
Proof.
  apply (pock_check_sound _ [(35385462869,1,2)] 0).
  - vm_cast_no_check (eq_refl true).
  - exact (Forall_cons (35385462869,1,2) pa36_85462869 (Forall_nil _)).
Qed.
Lemma pa134_41386769 : prime 13427688667394608761327070753331941386769.
Proof.
  apply (pock_check_sound _ [(2480874801745591,1,2)] 901097675548211).
  - vm_cast_no_check (eq_refl true).
  - exact (Forall_cons (2480874801745591,1,2) pa52_1745591 (Forall_nil _)).
Qed.
Lemma pa_413527 : prime 413527.
Proof. apply small_prime_sound. vm_cast_no_check (eq_refl true). Qed.
Lemma pa49_59374267 : prime 325086459374267.
Proof.
  apply (pock_check_sound _ [(413527,1,2)] 16330).
  - vm_cast_no_check (eq_refl true).
  - exact (Forall_cons (413527,1,2) pa_413527 (Forall_nil _)).
Qed.
Lemma pa143_97519453 : prime 8999194758858563409123804352480028797519453.
Proof.
  apply (pock_check_sound _ [(325086459374267,1,2)] 311074143336076).
  - vm_cast_no_check (eq_refl true).
  - exact (Forall_cons (325086459374267,1,2) pa49_59374267 (Forall_nil _)).
Qed.
Lemma pa_73 : prime 73.
Proof. apply small_prime_sound. vm_cast_no_check (eq_refl true). Qed.
Lemma pa_8263 : prime 8263.
Proof. apply small_prime_sound. vm_cast_no_check (eq_refl true). Qed.
Lemma pa67_29695101 : prime 111286271775829695101.
Proof.
  apply (pock_check_sound _ [(5,2,2);(73,1,2);(8263,1,2)] 5873720).
  - vm_cast_no_check (eq_refl true).
  - exact (Forall_cons (5,2,2) pa_5 (Forall_cons (73,1,2) pa_73 (Forall_cons (8263,1,2) pa_8263 (Forall_nil _)))).
Qed.
Lemma pa68_59390203 : prime 222572543551659390203.
Proof.
  apply (pock_check_sound _ [(111286271775829695101,1,2)] 0).
  - vm_cast_no_check (eq_refl true).
  - exact (Forall_cons (111286271775829695101,1,2) pa67_29695101 (Forall_nil _)).
Qed.
Lemma pa77_31689321 : prime 97931919162730131689321.
Proof.
  apply (pock_check_sound _ [(222572543551659390203,1,2)] 0).
  - vm_cast_no_check (eq_refl true).
  - exact (Forall_cons (222572543551659390203,1,2) pa68_59390203 (Forall_nil _)).
Qed.
Lemma pa82_4194199 : prime 3721412928183745004194199.
Proof.
  apply (pock_check_sound _ [(97931919162730131689321,1,2)] 0).
  - vm_cast_no_check (eq_refl true).
  - exact (Forall_cons (97931919162730131689321,1,2) pa77_31689321 (Forall_nil _)).
Qed.
Lemma pa226_90956181 : prime 73387170334035996766247648424745786170238574695861388454532790956181.
Proof.
  apply (pock_check_sound _ [(3721412928183745004194199,1,2)] 1408133398510421702810246).
  - vm_cast_no_check (eq_refl true).
  - exact (Forall_cons (3721412928183745004194199,1,2) pa82_4194199 (Forall_nil _)).
Qed.
Lemma pa_755057 : prime 755057.
Proof. apply small_prime_sound. vm_cast_no_check (eq_refl true). Qed.
Lemma pa72_18131021 : prime 3819663927398918131021.
Proof.
  apply (pock_check_sound _ [(113,1,2);(755057,1,2)] 21525842).
  - vm_cast_no_check (eq_refl true).
  - exact (Forall_cons (113,1,2) pa_113 (Forall_cons (755057,1,2) pa_755057 (Forall_nil _))).
Qed.
Lemma pa120_86709967 : prime 1125266252156850182658904441386709967.
Proof.
  apply (pock_check_sound _ [(3819663927398918131021,1,2)] 0).
  - vm_cast_no_check (eq_refl true).
  - exact (Forall_cons (3819663927398918131021,1,2) pa72_18131021 (Forall_nil _)).
Qed.
Lemma pa234_27714659 : prime 15778400344354997994418419698270088123916926905054652752758194827714659.
Proof.
  apply (pock_check_sound _ [(1125266252156850182658904441386709967,1,2)] 0).
  - vm_cast_no_check (eq_refl true).
  - exact (Forall_cons (1125266252156850182658904441386709967,1,2) pa120_86709967 (Forall_nil _)).
Qed.
Lemma pa_65687 : prime 65687.
Proof. apply small_prime_sound. vm_cast_no_check (eq_refl true). Qed.
Lemma pa54_71739799 : prime 13452418571739799.
Proof.
  apply (pock_check_sound _ [(7,2,2);(65687,1,2)] 1680571).
  - vm_cast_no_check (eq_refl true).
  - exact (Forall_cons (7,2,2) pa_7 (Forall_cons (65687,1,2) pa_65687 (Forall_nil _))).
Qed.
Lemma pa157_3436481 : prime 110441943722098701427632597570117775632003436481.
Proof.
  apply (pock_check_sound _ [(13452418571739799,1,2)] 3387035890640352).
  - vm_cast_no_check (eq_refl true).
  - exact (Forall_cons (13452418571739799,1,2) pa54_71739799 (Forall_nil _)).
Qed.
Lemma pa256_74687821 : prime 63705136273769028493414655143428328610371053611002704256562196848602974687821.
Proof.
  apply (pock_check_sound _ [(110441943722098701427632597570117775632003436481,1,2)] 0).
  - vm_cast_no_check (eq_refl true).
  - exact (Forall_cons (110441943722098701427632597570117775632003436481,1,2) pa157_3436481 (Forall_nil _)).
Qed.
Lemma pa_31 : prime 31.
Proof. apply small_prime_sound. vm_cast_no_check (eq_refl true). Qed.
Lemma pa62_50435641 : prime 2520036082850435641.
Proof.
  apply (pock_check_sound _ [(2,3,11);(3,4,5);(17,2,2);(31,1,2)] 4483072).
  - vm_cast_no_check (eq_refl true).
  - exact (Forall_cons (2,3,11) pa_2 (Forall_cons (3,4,5) pa_3 (Forall_cons (17,2,2) pa_17 (Forall_cons (31,1,2) pa_31 (Forall_nil _))))).
Qed.
Lemma pa73_12742983 : prime 9329173578712312742983.
Proof.
  apply (pock_check_sound _ [(2520036082850435641,1,2)] 0).
  - vm_cast_no_check (eq_refl true).
  - exact (Forall_cons (2520036082850435641,1,2) pa62_50435641 (Forall_nil _)).
Qed.
Lemma pa160_25408501 : prime 864205495604807476120572616017955259175325408501.
Proof.
  apply (pock_check_sound _ [(9329173578712312742983,1,2)] 5367682670901669221292).
  - vm_cast_no_check (eq_refl true).
  - exact (Forall_cons (9329173578712312742983,1,2) pa73_12742983 (Forall_nil _)).
Qed.
Lemma pa_167 : prime 167.
Proof. apply small_prime_sound. vm_cast_no_check (eq_refl true). Qed.
Lemma pa_43 : prime 43.
Proof. apply small_prime_sound. vm_cast_no_check (eq_refl true). Qed.
Lemma pa_146249 : prime 146249.
Proof. apply small_prime_sound. vm_cast_no_check (eq_refl true). Qed.
Lemma pa68_89060287 : prime 215503530768389060287.
Proof.
  apply (pock_check_sound _ [(47,1,2);(146249,1,2)] 2327756).
  - vm_cast_no_check (eq_refl true).
  - exact (Forall_cons (47,1,2) pa_47 (Forall_cons (146249,1,2) pa_146249 (Forall_nil _))).
Qed.
Lemma pa90_77929423 : prime 688987631240801274977929423.
Proof.
  apply (pock_check_sound _ [(215503530768389060287,1,2)] 0).
  - vm_cast_no_check (eq_refl true).
  - exact (Forall_cons (215503530768389060287,1,2) pa68_89060287 (Forall_nil _)).
Qed.
Lemma pa120_97921187 : prime 832668823862928114206893884097921187.
Proof.
  apply (pock_check_sound _ [(688987631240801274977929423,1,2)] 0).
  - vm_cast_no_check (eq_refl true).
  - exact (Forall_cons (688987631240801274977929423,1,2) pa90_77929423 (Forall_nil _)).
Qed.

Definition fs_alt_bn128_base_field_254 : list (Z * Z) := [(2, 1); (3, 2); (13, 1); (29, 1); (67, 1); (229, 1); (311, 1); (983, 1); (11003, 1); (405928799, 1); (11465965001, 1); (13427688667394608761327070753331941386769, 1)].
Lemma fs_alt_bn128_base_field_254_primes : Forall (fun '(l, _) => prime l) fs_alt_bn128_base_field_254.
Proof. exact (Forall_cons (2, 1) pa_2 (Forall_cons (3, 2) pa_3 (Forall_cons (13, 1) pa_13 (Forall_cons (29, 1) pa_29 (Forall_cons (67, 1) pa_67 (Forall_cons (229, 1) pa_229 (Forall_cons (311, 1) pa_311 (Forall_cons (983, 1) pa_983 (Forall_cons (11003, 1) pa_11003 (Forall_cons (405928799, 1) pa29_5928799 (Forall_cons (11465965001, 1) pa34_65965001 (Forall_cons (13427688667394608761327070753331941386769, 1) pa134_41386769 (Forall_nil _))))))))))))). Qed.
Definition qs_alt_bn128_base_field_254 : list Z := [13427688667394608761327070753331941386769].
Lemma qs_alt_bn128_base_field_254_primes : Forall prime qs_alt_bn128_base_field_254.
Proof. exact (Forall_cons 13427688667394608761327070753331941386769 pa134_41386769 (Forall_nil _)). Qed.
Definition fs_alt_bn128_scalar_field_254 : list (Z * Z) := [(2, 28); (3, 2); (13, 1); (29, 1); (983, 1); (11003, 1); (237073, 1); (405928799, 1); (1670836401704629, 1); (13818364434197438864469338081, 1)].
Lemma fs_alt_bn128_scalar_field_254_primes : Forall (fun '(l, _) => prime l) fs_alt_bn128_scalar_field_254.
Proof. exact (Forall_cons (2, 28) pa_2 (Forall_cons (3, 2) pa_3 (Forall_cons (13, 1) pa_13 (Forall_cons (29, 1) pa_29 (Forall_cons (983, 1) pa_983 (Forall_cons (11003, 1) pa_11003 (Forall_cons (237073, 1) pa_237073 (Forall_cons (405928799, 1) pa29_5928799 (Forall_cons (1670836401704629, 1) pa51_1704629 (Forall_cons (13818364434197438864469338081, 1) pa94_69338081 (Forall_nil _))))))))))). Qed.
Definition qs_alt_bn128_scalar_field_254 : list Z := [13818364434197438864469338081].
Lemma qs_alt_bn128_scalar_field_254_primes : Forall prime qs_alt_bn128_scalar_field_254.
Proof. exact (Forall_cons 13818364434197438864469338081 pa94_69338081 (Forall_nil _)). Qed.
Definition fs_bls12_base_field_381 : list (Z * Z) := [(2, 1); (3, 2); (11, 1); (23, 1); (47, 1); (10177, 1); (859267, 1); (52437899, 1); (2584487767265781317813, 1); (15778400344354997994418419698270088123916926905054652752758194827714659, 1)].
Lemma fs_bls12_base_field_381_primes : Forall (fun '(l, _) => prime l) fs_bls12_base_field_381.
Proof. exact (Forall_cons (2, 1) pa_2 (Forall_cons (3, 2) pa_3 (Forall_cons (11, 1) pa_11 (Forall_cons (23, 1) pa_23 (Forall_cons (47, 1) pa_47 (Forall_cons (10177, 1) pa_10177 (Forall_cons (859267, 1) pa_859267 (Forall_cons (52437899, 1) pa26_52437899 (Forall_cons (2584487767265781317813, 1) pa72_81317813 (Forall_cons (15778400344354997994418419698270088123916926905054652752758194827714659, 1) pa234_27714659 (Forall_nil _))))))))))). Qed.
Definition qs_bls12_base_field_381 : list Z := [15778400344354997994418419698270088123916926905054652752758194827714659].
Lemma qs_bls12_base_field_381_primes : Forall prime qs_bls12_base_field_381.
Proof. exact (Forall_cons 15778400344354997994418419698270088123916926905054652752758194827714659 pa234_27714659 (Forall_nil _)). Qed.
Definition fs_bls12_scalar_field_381 : list (Z * Z) := [(2, 32); (3, 1); (11, 1); (19, 1); (10177, 1); (125527, 1); (859267, 1); (906349, 2); (2508409, 1); (2529403, 1); (52437899, 1); (254760293, 2)].
Lemma fs_bls12_scalar_field_381_primes : Forall (fun '(l, _) => prime l) fs_bls12_scalar_field_381.
Proof. exact (Forall_cons (2, 32) pa_2 (Forall_cons (3, 1) pa_3 (Forall_cons (11, 1) pa_11 (Forall_cons (19, 1) pa_19 (Forall_cons (10177, 1) pa_10177 (Forall_cons (125527, 1) pa_125527 (Forall_cons (859267, 1) pa_859267 (Forall_cons (906349, 2) pa_906349 (Forall_cons (2508409, 1) pa22_2508409 (Forall_cons (2529403, 1) pa22_2529403 (Forall_cons (52437899, 1) pa26_52437899 (Forall_cons (254760293, 2) pa28_54760293 (Forall_nil _))))))))))))). Qed.
Definition qs_bls12_scalar_field_381 : list Z := [254760293; 52437899].
Lemma qs_bls12_scalar_field_381_primes : Forall prime qs_bls12_scalar_field_381.
Proof. exact (Forall_cons 254760293 pa28_54760293 (Forall_cons 52437899 pa26_52437899 (Forall_nil _))). Qed.
Definition fs_bls12_base_field_377 : list (Z * Z) := [(2, 46); (3, 1); (7, 1); (13, 1); (53, 1); (409, 1); (499, 1); (2557, 1); (6633514200929891813, 1); (73387170334035996766247648424745786170238574695861388454532790956181, 1)].
Lemma fs_bls12_base_field_377_primes : Forall (fun '(l, _) => prime l) fs_bls12_base_field_377.
Proof. exact (Forall_cons (2, 46) pa_2 (Forall_cons (3, 1) pa_3 (Forall_cons (7, 1) pa_7 (Forall_cons (13, 1) pa_13 (Forall_cons (53, 1) pa_53 (Forall_cons (409, 1) pa_409 (Forall_cons (499, 1) pa_499 (Forall_cons (2557, 1) pa_2557 (Forall_cons (6633514200929891813, 1) pa63_29891813 (Forall_cons (73387170334035996766247648424745786170238574695861388454532790956181, 1) pa226_90956181 (Forall_nil _))))))))))). Qed.
Definition qs_bls12_base_field_377 : list Z := [73387170334035996766247648424745786170238574695861388454532790956181].
Lemma qs_bls12_base_field_377_primes : Forall prime qs_bls12_base_field_377.
Proof. exact (Forall_cons 73387170334035996766247648424745786170238574695861388454532790956181 pa226_90956181 (Forall_nil _)). Qed.
Definition fs_bls12_scalar_field_377 : list (Z * Z) := [(2, 47); (3, 1); (5, 1); (7, 1); (13, 1); (499, 1); (958612291309063373, 1); (9586122913090633729, 2)].
Lemma fs_bls12_scalar_field_377_primes : Forall (fun '(l, _) => prime l) fs_bls12_scalar_field_377.
Proof. exact (Forall_cons (2, 47) pa_2 (Forall_cons (3, 1) pa_3 (Forall_cons (5, 1) pa_5 (Forall_cons (7, 1) pa_7 (Forall_cons (13, 1) pa_13 (Forall_cons (499, 1) pa_499 (Forall_cons (958612291309063373, 1) pa60_9063373 (Forall_cons (9586122913090633729, 2) pa64_90633729 (Forall_nil _))))))))). Qed.
Definition qs_bls12_scalar_field_377 : list Z := [9586122913090633729].
Lemma qs_bls12_scalar_field_377_primes : Forall prime qs_bls12_scalar_field_377.
Proof. exact (Forall_cons 9586122913090633729 pa64_90633729 (Forall_nil _)). Qed.
Definition fs_bn128_base_field_254 : list (Z * Z) := [(2, 1); (3, 2); (13, 1); (29, 1); (67, 1); (229, 1); (311, 1); (983, 1); (11003, 1); (405928799, 1); (11465965001, 1); (13427688667394608761327070753331941386769, 1)].
Lemma fs_bn128_base_field_254_primes : Forall (fun '(l, _) => prime l) fs_bn128_base_field_254.
Proof. exact (Forall_cons (2, 1) pa_2 (Forall_cons (3, 2) pa_3 (Forall_cons (13, 1) pa_13 (Forall_cons (29, 1) pa_29 (Forall_cons (67, 1) pa_67 (Forall_cons (229, 1) pa_229 (Forall_cons (311, 1) pa_311 (Forall_cons (983, 1) pa_983 (Forall_cons (11003, 1) pa_11003 (Forall_cons (405928799, 1) pa29_5928799 (Forall_cons (11465965001, 1) pa34_65965001 (Forall_cons (13427688667394608761327070753331941386769, 1) pa134_41386769 (Forall_nil _))))))))))))). Qed.
Definition qs_bn128_base_field_254 : list Z := [13427688667394608761327070753331941386769].
Lemma qs_bn128_base_field_254_primes : Forall prime qs_bn128_base_field_254.
Proof. exact (Forall_cons 13427688667394608761327070753331941386769 pa134_41386769 (Forall_nil _)). Qed.
Definition fs_bn128_scalar_field_254 : list (Z * Z) := [(2, 28); (3, 2); (13, 1); (29, 1); (983, 1); (11003, 1); (237073, 1); (405928799, 1); (1670836401704629, 1); (13818364434197438864469338081, 1)].
Lemma fs_bn128_scalar_field_254_primes : Forall (fun '(l, _) => prime l) fs_bn128_scalar_field_254.
Proof. exact (Forall_cons (2, 28) pa_2 (Forall_cons (3, 2) pa_3 (Forall_cons (13, 1) pa_13 (Forall_cons (29, 1) pa_29 (Forall_cons (983, 1) pa_983 (Forall_cons (11003, 1) pa_11003 (Forall_cons (237073, 1) pa_237073 (Forall_cons (405928799, 1) pa29_5928799 (Forall_cons (1670836401704629, 1) pa51_1704629 (Forall_cons (13818364434197438864469338081, 1) pa94_69338081 (Forall_nil _))))))))))). Qed.
Definition qs_bn128_scalar_field_254 : list Z := [13818364434197438864469338081].
Lemma qs_bn128_scalar_field_254_primes : Forall prime qs_bn128_scalar_field_254.
Proof. exact (Forall_cons 13818364434197438864469338081 pa94_69338081 (Forall_nil _)). Qed.
Definition fs_edwards_base_field_183 : list (Z * Z) := [(2, 31); (3, 2); (5, 3); (7, 2); (17, 1); (29, 1); (53, 1); (79, 2); (263, 1); (1021, 1); (711890597413, 1); (1682846480381357, 1)].
Lemma fs_edwards_base_field_183_primes : Forall (fun '(l, _) => prime l) fs_edwards_base_field_183.
Proof. exact (Forall_cons (2, 31) pa_2 (Forall_cons (3, 2) pa_3 (Forall_cons (5, 3) pa_5 (Forall_cons (7, 2) pa_7 (Forall_cons (17, 1) pa_17 (Forall_cons (29, 1) pa_29 (Forall_cons (53, 1) pa_53 (Forall_cons (79, 2) pa_79 (Forall_cons (263, 1) pa_263 (Forall_cons (1021, 1) pa_1021 (Forall_cons (711890597413, 1) pa40_90597413 (Forall_cons (1682846480381357, 1) pa51_80381357 (Forall_nil _))))))))))))). Qed.
Definition qs_edwards_base_field_183 : list Z := [1682846480381357].
Lemma qs_edwards_base_field_183_primes : Forall prime qs_edwards_base_field_183.
Proof. exact (Forall_cons 1682846480381357 pa51_80381357 (Forall_nil _)). Qed.
Definition fs_edwards_scalar_field_183 : list (Z * Z) := [(2, 31); (3, 1); (5, 2); (7, 3); (17, 1); (29, 1); (53, 1); (79, 2); (113, 1); (263, 1); (1021, 1); (5679531856541001669394577, 1)].
Lemma fs_edwards_scalar_field_183_primes : Forall (fun '(l, _) => prime l) fs_edwards_scalar_field_183.
Proof. exact (Forall_cons (2, 31) pa_2 (Forall_cons (3, 1) pa_3 (Forall_cons (5, 2) pa_5 (Forall_cons (7, 3) pa_7 (Forall_cons (17, 1) pa_17 (Forall_cons (29, 1) pa_29 (Forall_cons (53, 1) pa_53 (Forall_cons (79, 2) pa_79 (Forall_cons (113, 1) pa_113 (Forall_cons (263, 1) pa_263 (Forall_cons (1021, 1) pa_1021 (Forall_cons (5679531856541001669394577, 1) pa83_69394577 (Forall_nil _))))))))))))). Qed.
Definition qs_edwards_scalar_field_183 : list Z := [5679531856541001669394577].
Lemma qs_edwards_scalar_field_183_primes : Forall prime qs_edwards_scalar_field_183.
Proof. exact (Forall_cons 5679531856541001669394577 pa83_69394577 (Forall_nil _)). Qed.
Definition fs_goldilocks64_base_field : list (Z * Z) := [(2, 32); (3, 1); (5, 1); (17, 1); (257, 1); (65537, 1)].
Lemma fs_goldilocks64_base_field_primes : Forall (fun '(l, _) => prime l) fs_goldilocks64_base_field.
Proof. exact (Forall_cons (2, 32) pa_2 (Forall_cons (3, 1) pa_3 (Forall_cons (5, 1) pa_5 (Forall_cons (17, 1) pa_17 (Forall_cons (257, 1) pa_257 (Forall_cons (65537, 1) pa_65537 (Forall_nil _))))))). Qed.
Lemma pa20_1022209 : prime 1022209.
Proof.
  apply (pock_check_sound _ [(11,3,2)] 0).
  - vm_cast_no_check (eq_refl true).
  - exact (Forall_cons (11,3,2) pa_11 (Forall_nil _)).
Qed.
Lemma pa26_42932779 : prime 42932779.
Proof.
  apply (pock_check_sound _ [(1022209,1,2)] 0).
  - vm_cast_no_check (eq_refl true).
  - exact (Forall_cons (1022209,1,2) pa20_1022209 (Forall_nil _)).
Qed.
Lemma pa_172829 : prime 172829.
Proof. apply small_prime_sound. vm_cast_no_check (eq_refl true). Qed.
Lemma pa25_24196061 : prime 24196061.
Proof.
  apply (pock_check_sound _ [(172829,1,2)] 0).
  - vm_cast_no_check (eq_refl true).
  - exact (Forall_cons (172829,1,2) pa_172829 (Forall_nil _)).
Qed.
Lemma pa30_25881831 : prime 725881831.
Proof.
  apply (pock_check_sound _ [(24196061,1,2)] 0).
  - vm_cast_no_check (eq_refl true).
  - exact (Forall_cons (24196061,1,2) pa25_24196061 (Forall_nil _)).
Qed.
Lemma pa62_87341693 : prime 3365725416887341693.
Proof.
  apply (pock_check_sound _ [(42932779,1,2); (725881831,1,2)] 0).
  - vm_cast_no_check (eq_refl true).
  - exact (Forall_cons (42932779,1,2) pa26_42932779 (Forall_cons (725881831,1,2) pa30_25881831 (Forall_nil _))).
Qed.
Lemma pa108_50318551 : prime 211749493256267713227913350318551.
Proof.
  apply (pock_check_sound _ [(3365725416887341693,1,2)] 0).
  - vm_cast_no_check (eq_refl true).
  - exact (Forall_cons (3365725416887341693,1,2) pa62_87341693 (Forall_nil _)).
Qed.
Lemma pa126_35473727 : prime 46886843293762334669203941507635473727.
Proof.
  apply (pock_check_sound _ [(211749493256267713227913350318551,1,2)] 0).
  - vm_cast_no_check (eq_refl true).
  - exact (Forall_cons (211749493256267713227913350318551,1,2) pa108_50318551 (Forall_nil _)).
Qed.
Definition fs_mnt4_base_field_298 : list (Z * Z) := [(2, 17); (3, 1); (5, 1); (7, 2); (43, 1); (67, 1); (167, 1); (263, 1); (832668823862928114206893884097921187, 1); (46886843293762334669203941507635473727, 1)].
Lemma fs_mnt4_base_field_298_primes : Forall (fun '(l, _) => prime l) fs_mnt4_base_field_298.
Proof. exact (Forall_cons (2, 17) pa_2 (Forall_cons (3, 1) pa_3 (Forall_cons (5, 1) pa_5 (Forall_cons (7, 2) pa_7 (Forall_cons (43, 1) pa_43 (Forall_cons (67, 1) pa_67 (Forall_cons (167, 1) pa_167 (Forall_cons (263, 1) pa_263 (Forall_cons (832668823862928114206893884097921187, 1) pa120_97921187 (Forall_cons (46886843293762334669203941507635473727, 1) pa126_35473727 (Forall_nil _))))))))))). Qed.
Definition qs_mnt4_base_field_298 : list Z := [263; 167; 67].
Lemma qs_mnt4_base_field_298_primes : Forall prime qs_mnt4_base_field_298.
Proof. exact (Forall_cons 263 pa_263 (Forall_cons 167 pa_167 (Forall_cons 67 pa_67 (Forall_nil _)))). Qed.
Definition fs_mnt6_base_field_298 : list (Z * Z) := [(2, 34); (3, 2); (7, 4); (43, 2); (832668823862928114206893884097921187, 2)].
Lemma fs_mnt6_base_field_298_primes : Forall (fun '(l, _) => prime l) fs_mnt6_base_field_298.
Proof. exact (Forall_cons (2, 34) pa_2 (Forall_cons (3, 2) pa_3 (Forall_cons (7, 4) pa_7 (Forall_cons (43, 2) pa_43 (Forall_cons (832668823862928114206893884097921187, 2) pa120_97921187 (Forall_nil _)))))). Qed.
Definition qs_mnt6_base_field_298 : list Z := [832668823862928114206893884097921187].
Lemma qs_mnt6_base_field_298_primes : Forall prime qs_mnt6_base_field_298.
Proof. exact (Forall_cons 832668823862928114206893884097921187 pa120_97921187 (Forall_nil _)). Qed.
Definition fs_pallas_base_field : list (Z * Z) := [(2, 32); (3, 1); (463, 1); (539204044132271846773, 1); (8999194758858563409123804352480028797519453, 1)].
Lemma fs_pallas_base_field_primes : Forall (fun '(l, _) => prime l) fs_pallas_base_field.
Proof. exact (Forall_cons (2, 32) pa_2 (Forall_cons (3, 1) pa_3 (Forall_cons (463, 1) pa_463 (Forall_cons (539204044132271846773, 1) pa69_71846773 (Forall_cons (8999194758858563409123804352480028797519453, 1) pa143_97519453 (Forall_nil _)))))). Qed.
Definition qs_pallas_base_field : list Z := [8999194758858563409123804352480028797519453].
Lemma qs_pallas_base_field_primes : Forall prime qs_pallas_base_field.
Proof. exact (Forall_cons 8999194758858563409123804352480028797519453 pa143_97519453 (Forall_nil _)). Qed.
Definition fs_vesta_base_field : list (Z * Z) := [(2, 32); (3, 2); (1709, 1); (24859, 1); (1690502597179744445941507, 1); (10427374428728808478656897599072717, 1)].
Lemma fs_vesta_base_field_primes : Forall (fun '(l, _) => prime l) fs_vesta_base_field.
Proof. exact (Forall_cons (2, 32) pa_2 (Forall_cons (3, 2) pa_3 (Forall_cons (1709, 1) pa_1709 (Forall_cons (24859, 1) pa_24859 (Forall_cons (1690502597179744445941507, 1) pa81_45941507 (Forall_cons (10427374428728808478656897599072717, 1) pa114_99072717 (Forall_nil _))))))). Qed.
Definition qs_vesta_base_field : list Z := [10427374428728808478656897599072717].
Lemma qs_vesta_base_field_primes : Forall prime qs_vesta_base_field.
Proof. exact (Forall_cons 10427374428728808478656897599072717 pa114_99072717 (Forall_nil _)). Qed.
Lemma dsa_botan_2048_group_q_prime : prime (d_q dsa_botan_2048_group).
Proof. exact pa256_74687821. Qed.
Lemma dsa_jce_1024_group_q_prime : prime (d_q dsa_jce_1024_group).
Proof. exact pa160_25408501. Qed.
Lemma dq_474959 : prime 474959.
Proof. apply small_prime_sound. vm_cast_no_check (eq_refl true). Qed.
Lemma dq26_42746311 : prime 42746311.
Proof.
  apply (pock_check_sound _ [(474959,1,2)] 0).
  - vm_cast_no_check (eq_refl true).
  - exact (Forall_cons (474959,1,2) dq_474959 (Forall_nil _)).
Qed.
Lemma dq43_57855137 : prime 7718957855137.
Proof.
  apply (pock_check_sound _ [(42746311,1,2)] 0).
  - vm_cast_no_check (eq_refl true).
  - exact (Forall_cons (42746311,1,2) dq26_42746311 (Forall_nil _)).
Qed.
Lemma dq_420253 : prime 420253.
Proof. apply small_prime_sound. vm_cast_no_check (eq_refl true). Qed.
Lemma dq_11621 : prime 11621.
Proof. apply small_prime_sound. vm_cast_no_check (eq_refl true). Qed.
Lemma dq25_24845699 : prime 24845699.
Proof.
  apply (pock_check_sound _ [(11621,1,2)] 0).
  - vm_cast_no_check (eq_refl true).
  - exact (Forall_cons (11621,1,2) dq_11621 (Forall_nil _)).
Qed.
Lemma dq60_39153083 : prime 689200298639153083.
Proof.
  apply (pock_check_sound _ [(420253,1,2); (24845699,1,2)] 0).
  - vm_cast_no_check (eq_refl true).
  - exact (Forall_cons (420253,1,2) dq_420253 (Forall_cons (24845699,1,2) dq25_24845699 (Forall_nil _))).
Qed.
Lemma dq133_26373907 : prime 9993766940720913541131256341321426373907.
Proof.
  apply (pock_check_sound _ [(7718957855137,1,2); (689200298639153083,1,2)] 0).
  - vm_cast_no_check (eq_refl true).
  - exact (Forall_cons (7718957855137,1,2) dq43_57855137 (Forall_cons (689200298639153083,1,2) dq60_39153083 (Forall_nil _))).
Qed.
Lemma dq144_71851757 : prime 15070600546607137620025934562712710971851757.
Proof.
  apply (pock_check_sound _ [(9993766940720913541131256341321426373907,1,2)] 0).
  - vm_cast_no_check (eq_refl true).
  - exact (Forall_cons (9993766940720913541131256341321426373907,1,2) dq133_26373907 (Forall_nil _)).
Qed.
Lemma dq256_82085723 : prime 81380667945998723631672476421076471172652673314078474728416633313693382085723.
Proof.
  apply (pock_check_sound _ [(15070600546607137620025934562712710971851757,1,2)] 0).
  - vm_cast_no_check (eq_refl true).
  - exact (Forall_cons (15070600546607137620025934562712710971851757,1,2) dq144_71851757 (Forall_nil _)).
Qed.
Lemma dsa_botan_3072_group_q_prime : prime (d_q dsa_botan_3072_group).
Proof. exact dq256_82085723. Qed.
