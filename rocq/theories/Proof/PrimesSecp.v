(** Generated primality certificates (Pocklington with partial factorisations;
    trial division below 10^6).   *)
From Coq Require Import ZArith Znumtheory List.
From Verif Require Import Proof.Pocklington.
Import ListNotations.
Local Open Scope Z_scope.

(** fields/secp/secp_k1/base_field.hpp:59 *)
Lemma pr_59 : prime 59.
Proof. apply small_prime_sound. vm_cast_no_check (eq_refl true). Qed.
Lemma pr_97397 : prime 97397.
Proof. apply small_prime_sound. vm_cast_no_check (eq_refl true). Qed.
Lemma pr_186259 : prime 186259.
Proof. apply small_prime_sound. vm_cast_no_check (eq_refl true). Qed.
Lemma pr31_58987831 : prime 1558987831.
Proof.
  apply (pock_check_sound _ [(186259,1,2)] 0).
  - vm_cast_no_check (eq_refl true).
  - refine (Forall_cons (186259,1,2) pr_186259 (Forall_nil _)).
Qed.
Lemma pr146_93621473 : prime 61588775277324185343602394973294691093621473.
Proof.
  apply (pock_check_sound _ [(59,1,2); (97397,1,2); (1558987831,1,2)] 8267391936013899).
  - vm_cast_no_check (eq_refl true).
  - refine (Forall_cons (59,1,2) pr_59 (Forall_cons (97397,1,2) pr_97397 (Forall_cons (1558987831,1,2) pr31_58987831 (Forall_nil _)))).
Qed.
Lemma prime_secp_k1_base_field_160 : prime 1461501637330902918203684832716283019651637554291.
Proof.
  apply (pock_check_sound _ [(61588775277324185343602394973294691093621473,1,2)] 0).
  - vm_cast_no_check (eq_refl true).
  - refine (Forall_cons (61588775277324185343602394973294691093621473,1,2) pr146_93621473 (Forall_nil _)).
Qed.
(** fields/secp/secp_k1/base_field.hpp:86 *)
Lemma pr_3119 : prime 3119.
Proof. apply small_prime_sound. vm_cast_no_check (eq_refl true). Qed.
Lemma pr_7057 : prime 7057.
Proof. apply small_prime_sound. vm_cast_no_check (eq_refl true). Qed.
Lemma pr34_13956389 : prime 11113956389.
Proof.
  apply (pock_check_sound _ [(7057,1,2)] 1172).
  - vm_cast_no_check (eq_refl true).
  - refine (Forall_cons (7057,1,2) pr_7057 (Forall_nil _)).
Qed.
Lemma pr133_92444641 : prime 10489845818524887021689201254173392444641.
Proof.
  apply (pock_check_sound _ [(3119,1,2); (11113956389,1,2)] 2360581244699).
  - vm_cast_no_check (eq_refl true).
  - refine (Forall_cons (3119,1,2) pr_3119 (Forall_cons (11113956389,1,2) pr34_13956389 (Forall_nil _))).
Qed.
Lemma prime_secp_k1_base_field_192 : prime 6277101735386680763835789423207666416102355444459739541047.
Proof.
  apply (pock_check_sound _ [(10489845818524887021689201254173392444641,1,2)] 0).
  - vm_cast_no_check (eq_refl true).
  - refine (Forall_cons (10489845818524887021689201254173392444641,1,2) pr133_92444641 (Forall_nil _)).
Qed.
(** fields/secp/secp_k1/base_field.hpp:114 *)
Lemma pr_21347 : prime 21347.
Proof. apply small_prime_sound. vm_cast_no_check (eq_refl true). Qed.
Lemma pr_7599533 : prime 7599533.
Proof.
  apply (pock_check_sound _ [(21347,1,2)] 0).
  - vm_cast_no_check (eq_refl true).
  - refine (Forall_cons (21347,1,2) pr_21347 (Forall_nil _)).
Qed.
Lemma pr68_2488243 : prime 156976040219402488243.
Proof.
  apply (pock_check_sound _ [(7599533,1,2)] 1927092).
  - vm_cast_no_check (eq_refl true).
  - refine (Forall_cons (7599533,1,2) pr_7599533 (Forall_nil _)).
Qed.
Lemma pr163_44788037 : prime 9743875111334057846550285755748171501325144788037.
Proof.
  apply (pock_check_sound _ [(156976040219402488243,1,2)] 91827914457979913741).
  - vm_cast_no_check (eq_refl true).
  - refine (Forall_cons (156976040219402488243,1,2) pr68_2488243 (Forall_nil _)).
Qed.
Lemma prime_secp_k1_base_field_224 : prime 26959946667150639794667015087019630673637144422540572481099315275117.
Proof.
  apply (pock_check_sound _ [(9743875111334057846550285755748171501325144788037,1,2)] 0).
  - vm_cast_no_check (eq_refl true).
  - refine (Forall_cons (9743875111334057846550285755748171501325144788037,1,2) pr163_44788037 (Forall_nil _)).
Qed.
(** fields/secp/secp_k1/base_field.hpp:142 *)
Lemma pr_4423 : prime 4423.
Proof. apply small_prime_sound. vm_cast_no_check (eq_refl true). Qed.
Lemma pr_41201 : prime 41201.
Proof. apply small_prime_sound. vm_cast_no_check (eq_refl true). Qed.
Lemma pr_96557 : prime 96557.
Proof. apply small_prime_sound. vm_cast_no_check (eq_refl true). Qed.
Lemma pr128_84175977 : prime 255515944373312847190720520512484175977.
Proof.
  apply (pock_check_sound _ [(4423,1,2); (41201,1,2); (96557,1,2)] 8944590389659).
  - vm_cast_no_check (eq_refl true).
  - refine (Forall_cons (4423,1,2) pr_4423 (Forall_cons (41201,1,2) pr_41201 (Forall_cons (96557,1,2) pr_96557 (Forall_nil _)))).
Qed.
Lemma pr237_55397371 : prime 205115282021455665897114700593932402728804164701536103180137503955397371.
Proof.
  apply (pock_check_sound _ [(255515944373312847190720520512484175977,1,2)] 0).
  - vm_cast_no_check (eq_refl true).
  - refine (Forall_cons (255515944373312847190720520512484175977,1,2) pr128_84175977 (Forall_nil _)).
Qed.
Lemma prime_secp_k1_base_field_256 : prime 115792089237316195423570985008687907853269984665640564039457584007908834671663.
Proof.
  apply (pock_check_sound _ [(205115282021455665897114700593932402728804164701536103180137503955397371,1,2)] 0).
  - vm_cast_no_check (eq_refl true).
  - refine (Forall_cons (205115282021455665897114700593932402728804164701536103180137503955397371,1,2) pr237_55397371 (Forall_nil _)).
Qed.
(** fields/secp/secp_k1/scalar_field.hpp:60 *)
Lemma pr_1613 : prime 1613.
Proof. apply small_prime_sound. vm_cast_no_check (eq_refl true). Qed.
Lemma pr29_32945783 : prime 332945783.
Proof.
  apply (pock_check_sound _ [(1613,1,2)] 1562).
  - vm_cast_no_check (eq_refl true).
  - refine (Forall_cons (1613,1,2) pr_1613 (Forall_nil _)).
Qed.
Lemma pr66_81467397 : prime 42918291593381467397.
Proof.
  apply (pock_check_sound _ [(332945783,1,2)] 54727990).
  - vm_cast_no_check (eq_refl true).
  - refine (Forall_cons (332945783,1,2) pr29_32945783 (Forall_nil _)).
Qed.
Lemma prime_secp_k1_scalar_field_160 : prime 1461501637330902918203686915170869725397159163571.
Proof.
  apply (pock_check_sound _ [(42918291593381467397,1,2)] 15012802975488712598).
  - vm_cast_no_check (eq_refl true).
  - refine (Forall_cons (42918291593381467397,1,2) pr66_81467397 (Forall_nil _)).
Qed.
(** fields/secp/secp_k1/scalar_field.hpp:88 *)
Lemma pr_815669 : prime 815669.
Proof. apply small_prime_sound. vm_cast_no_check (eq_refl true). Qed.
Lemma pr51_32578441 : prime 1611297632578441.
Proof.
  apply (pock_check_sound _ [(815669,1,2)] 696110).
  - vm_cast_no_check (eq_refl true).
  - refine (Forall_cons (815669,1,2) pr_815669 (Forall_nil _)).
Qed.
Lemma pr115_84750677 : prime 31767070186748510944261247684750677.
Proof.
  apply (pock_check_sound _ [(1611297632578441,1,2)] 982837313789200).
  - vm_cast_no_check (eq_refl true).
  - refine (Forall_cons (1611297632578441,1,2) pr51_32578441 (Forall_nil _)).
Qed.
Lemma pr159_57907331 : prime 434093022356392396149847294750353440317757907331.
Proof.
  apply (pock_check_sound _ [(31767070186748510944261247684750677,1,2)] 0).
  - vm_cast_no_check (eq_refl true).
  - refine (Forall_cons (31767070186748510944261247684750677,1,2) pr115_84750677 (Forall_nil _)).
Qed.
Lemma pr167_9419231 : prime 143250697377609490729449607267616635304860109419231.
Proof.
  apply (pock_check_sound _ [(434093022356392396149847294750353440317757907331,1,2)] 0).
  - vm_cast_no_check (eq_refl true).
  - refine (Forall_cons (434093022356392396149847294750353440317757907331,1,2) pr159_57907331 (Forall_nil _)).
Qed.
Lemma prime_secp_k1_scalar_field_192 : prime 6277101735386680763835789423061264271957123915200845512077.
Proof.
  apply (pock_check_sound _ [(143250697377609490729449607267616635304860109419231,1,2)] 0).
  - vm_cast_no_check (eq_refl true).
  - refine (Forall_cons (143250697377609490729449607267616635304860109419231,1,2) pr167_9419231 (Forall_nil _)).
Qed.
(** fields/secp/secp_k1/scalar_field.hpp:117 *)
Lemma pr_5 : prime 5.
Proof. apply small_prime_sound. vm_cast_no_check (eq_refl true). Qed.
Lemma pr_252913 : prime 252913.
Proof. apply small_prime_sound. vm_cast_no_check (eq_refl true). Qed.
Lemma pr_21244693 : prime 21244693.
Proof.
  apply (pock_check_sound _ [(252913,1,2)] 0).
  - vm_cast_no_check (eq_refl true).
  - refine (Forall_cons (252913,1,2) pr_252913 (Forall_nil _)).
Qed.
Lemma pr_59539 : prime 59539.
Proof. apply small_prime_sound. vm_cast_no_check (eq_refl true). Qed.
Lemma pr_4167731 : prime 4167731.
Proof.
  apply (pock_check_sound _ [(59539,1,2)] 0).
  - vm_cast_no_check (eq_refl true).
  - refine (Forall_cons (59539,1,2) pr_59539 (Forall_nil _)).
Qed.
Lemma pr_33341849 : prime 33341849.
Proof.
  apply (pock_check_sound _ [(4167731,1,2)] 0).
  - vm_cast_no_check (eq_refl true).
  - refine (Forall_cons (4167731,1,2) pr_4167731 (Forall_nil _)).
Qed.
Lemma pr151_47329471 : prime 2514514399252200308862687893991356095647329471.
Proof.
  apply (pock_check_sound _ [(5,1,2); (21244693,1,2); (33341849,1,2)] 332599435579470).
  - vm_cast_no_check (eq_refl true).
  - refine (Forall_cons (5,1,2) pr_5 (Forall_cons (21244693,1,2) pr_21244693 (Forall_cons (33341849,1,2) pr_33341849 (Forall_nil _)))).
Qed.
Lemma pr222_26444713 : prime 4493324444525106632444502514503273391085054513853345758165826444713.
Proof.
  apply (pock_check_sound _ [(2514514399252200308862687893991356095647329471,1,2)] 0).
  - vm_cast_no_check (eq_refl true).
  - refine (Forall_cons (2514514399252200308862687893991356095647329471,1,2) pr151_47329471 (Forall_nil _)).
Qed.
Lemma prime_secp_k1_scalar_field_224 : prime 26959946667150639794667015087019640346510327083120074548994958668279.
Proof.
  apply (pock_check_sound _ [(4493324444525106632444502514503273391085054513853345758165826444713,1,2)] 0).
  - vm_cast_no_check (eq_refl true).
  - refine (Forall_cons (4493324444525106632444502514503273391085054513853345758165826444713,1,2) pr222_26444713 (Forall_nil _)).
Qed.
(** fields/secp/secp_k1/scalar_field.hpp:145 *)
Lemma pr_1871 : prime 1871.
Proof. apply small_prime_sound. vm_cast_no_check (eq_refl true). Qed.
Lemma pr_1627771 : prime 1627771.
Proof.
  apply (pock_check_sound _ [(1871,1,2)] 0).
  - vm_cast_no_check (eq_refl true).
  - refine (Forall_cons (1871,1,2) pr_1871 (Forall_nil _)).
Qed.
Lemma pr39_59362677 : prime 297159362677.
Proof.
  apply (pock_check_sound _ [(1627771,1,2)] 0).
  - vm_cast_no_check (eq_refl true).
  - refine (Forall_cons (1627771,1,2) pr_1627771 (Forall_nil _)).
Qed.
Lemma pr95_97758179 : prime 29047611873442575647497758179.
Proof.
  apply (pock_check_sound _ [(297159362677,1,2)] 86782207286).
  - vm_cast_no_check (eq_refl true).
  - refine (Forall_cons (297159362677,1,2) pr39_59362677 (Forall_nil _)).
Qed.
Lemma pr109_9283189 : prime 341948486974166000522343609283189.
Proof.
  apply (pock_check_sound _ [(29047611873442575647497758179,1,2)] 0).
  - vm_cast_no_check (eq_refl true).
  - refine (Forall_cons (29047611873442575647497758179,1,2) pr95_97758179 (Forall_nil _)).
Qed.
Lemma prime_secp_k1_scalar_field_256 : prime 115792089237316195423570985008687907852837564279074904382605163141518161494337.
Proof.
  apply (pock_check_sound _ [(341948486974166000522343609283189,1,2)] 239540216835517601548171058147373).
  - vm_cast_no_check (eq_refl true).
  - refine (Forall_cons (341948486974166000522343609283189,1,2) pr109_9283189 (Forall_nil _)).
Qed.
(** fields/secp/secp_r1/base_field.hpp:59 *)
Lemma pr_745013 : prime 745013.
Proof. apply small_prime_sound. vm_cast_no_check (eq_refl true). Qed.
Lemma pr31_19826521 : prime 1519826521.
Proof.
  apply (pock_check_sound _ [(745013,1,2)] 0).
  - vm_cast_no_check (eq_refl true).
  - refine (Forall_cons (745013,1,2) pr_745013 (Forall_nil _)).
Qed.
Lemma pr42_66302501 : prime 3799566302501.
Proof.
  apply (pock_check_sound _ [(1519826521,1,2)] 0).
  - vm_cast_no_check (eq_refl true).
  - refine (Forall_cons (1519826521,1,2) pr31_19826521 (Forall_nil _)).
Qed.
Lemma pr73_77342183 : prime 9281531860908577342183.
Proof.
  apply (pock_check_sound _ [(3799566302501,1,2)] 0).
  - vm_cast_no_check (eq_refl true).
  - refine (Forall_cons (3799566302501,1,2) pr42_66302501 (Forall_nil _)).
Qed.
Lemma pr88_81211511 : prime 176070659401435712181211511.
Proof.
  apply (pock_check_sound _ [(9281531860908577342183,1,2)] 0).
  - vm_cast_no_check (eq_refl true).
  - refine (Forall_cons (9281531860908577342183,1,2) pr73_77342183 (Forall_nil _)).
Qed.
Lemma prime_secp_r1_base_field_160 : prime 1461501637330902918203684832716283019653785059327.
Proof.
  apply (pock_check_sound _ [(176070659401435712181211511,1,2)] 0).
  - vm_cast_no_check (eq_refl true).
  - refine (Forall_cons (176070659401435712181211511,1,2) pr88_81211511 (Forall_nil _)).
Qed.
(** fields/secp/secp_r1/base_field.hpp:86 *)
Lemma pr_2 : prime 2.
Proof. apply small_prime_sound. vm_cast_no_check (eq_refl true). Qed.
Lemma pr_3 : prime 3.
Proof. apply small_prime_sound. vm_cast_no_check (eq_refl true). Qed.
Lemma pr_8413201 : prime 8413201.
Proof.
  apply (pock_check_sound _ [(2,4,7); (3,3,5)] 32).
  - vm_cast_no_check (eq_refl true).
  - refine (Forall_cons (2,4,7) pr_2 (Forall_cons (3,3,5) pr_3 (Forall_nil _))).
Qed.
Lemma pr28_52396031 : prime 252396031.
Proof.
  apply (pock_check_sound _ [(8413201,1,2)] 0).
  - vm_cast_no_check (eq_refl true).
  - refine (Forall_cons (8413201,1,2) pr_8413201 (Forall_nil _)).
Qed.
Lemma pr39_27231987 : prime 455827231987.
Proof.
  apply (pock_check_sound _ [(252396031,1,2)] 0).
  - vm_cast_no_check (eq_refl true).
  - refine (Forall_cons (252396031,1,2) pr28_52396031 (Forall_nil _)).
Qed.
Lemma pr63_31140283 : prime 5933177618131140283.
Proof.
  apply (pock_check_sound _ [(455827231987,1,2)] 0).
  - vm_cast_no_check (eq_refl true).
  - refine (Forall_cons (455827231987,1,2) pr39_27231987 (Forall_nil _)).
Qed.
Lemma pr88_48032903 : prime 288626509448065367648032903.
Proof.
  apply (pock_check_sound _ [(5933177618131140283,1,2)] 0).
  - vm_cast_no_check (eq_refl true).
  - refine (Forall_cons (5933177618131140283,1,2) pr63_31140283 (Forall_nil _)).
Qed.
Lemma prime_secp_r1_base_field_192 : prime 6277101735386680763835789423207666416083908700390324961279.
Proof.
  apply (pock_check_sound _ [(288626509448065367648032903,1,2)] 174089999748711380351147575).
  - vm_cast_no_check (eq_refl true).
  - refine (Forall_cons (288626509448065367648032903,1,2) pr88_48032903 (Forall_nil _)).
Qed.
(** fields/secp/secp_r1/base_field.hpp:114 *)
Lemma prime_secp_r1_base_field_224 : prime 26959946667150639794667015087019630673557916260026308143510066298881.
Proof.
  apply (pock_check_sound _ [(2,96,11)] 79228162514264337593543950334).
  - vm_cast_no_check (eq_refl true).
  - refine (Forall_cons (2,96,11) pr_2 (Forall_nil _)).
Qed.
(** fields/secp/secp_r1/base_field.hpp:142 *)
Lemma pr_704251 : prime 704251.
Proof. apply small_prime_sound. vm_cast_no_check (eq_refl true). Qed.
Lemma pr56_64474543 : prime 46076956964474543.
Proof.
  apply (pock_check_sound _ [(704251,1,2)] 569639).
  - vm_cast_no_check (eq_refl true).
  - refine (Forall_cons (704251,1,2) pr_704251 (Forall_nil _)).
Qed.
Lemma pr150_72145303 : prime 774023187263532362759620327192479577272145303.
Proof.
  apply (pock_check_sound _ [(46076956964474543,1,2)] 20888052176031688).
  - vm_cast_no_check (eq_refl true).
  - refine (Forall_cons (46076956964474543,1,2) pr56_64474543 (Forall_nil _)).
Qed.
Lemma pr160_16927241 : prime 835945042244614951780389953367877943453916927241.
Proof.
  apply (pock_check_sound _ [(774023187263532362759620327192479577272145303,1,2)] 0).
  - vm_cast_no_check (eq_refl true).
  - refine (Forall_cons (774023187263532362759620327192479577272145303,1,2) pr150_72145303 (Forall_nil _)).
Qed.
Lemma prime_secp_r1_base_field_256 : prime 115792089210356248762697446949407573530086143415290314195533631308867097853951.
Proof.
  apply (pock_check_sound _ [(835945042244614951780389953367877943453916927241,1,2)] 0).
  - vm_cast_no_check (eq_refl true).
  - refine (Forall_cons (835945042244614951780389953367877943453916927241,1,2) pr160_16927241 (Forall_nil _)).
Qed.
(** fields/secp/secp_r1/base_field.hpp:170 *)
Lemma pr_8389 : prime 8389.
Proof. apply small_prime_sound. vm_cast_no_check (eq_refl true). Qed.
Lemma pr_38557 : prime 38557.
Proof. apply small_prime_sound. vm_cast_no_check (eq_refl true). Qed.
Lemma pr_312289 : prime 312289.
Proof. apply small_prime_sound. vm_cast_no_check (eq_refl true). Qed.
Lemma pr_881 : prime 881.
Proof. apply small_prime_sound. vm_cast_no_check (eq_refl true). Qed.
Lemma pr27_5957871 : prime 105957871.
Proof.
  apply (pock_check_sound _ [(881,1,2)] 453).
  - vm_cast_no_check (eq_refl true).
  - refine (Forall_cons (881,1,2) pr_881 (Forall_nil _)).
Qed.
Lemma pr69_59440593 : prime 529709925838459440593.
Proof.
  apply (pock_check_sound _ [(105957871,1,2)] 52058700).
  - vm_cast_no_check (eq_refl true).
  - refine (Forall_cons (105957871,1,2) pr27_5957871 (Forall_nil _)).
Qed.
Lemma pr334_47526097 : prime 19173790298027098165721053155794528970226934547887232785722672956982046098136719667167519737147526097.
Proof.
  apply (pock_check_sound _ [(8389,1,2); (38557,1,2); (312289,1,2); (529709925838459440593,1,2)] 50596204566639629110989936120475017).
  - vm_cast_no_check (eq_refl true).
  - refine (Forall_cons (8389,1,2) pr_8389 (Forall_cons (38557,1,2) pr_38557 (Forall_cons (312289,1,2) pr_312289 (Forall_cons (529709925838459440593,1,2) pr69_59440593 (Forall_nil _))))).
Qed.
Lemma prime_secp_r1_base_field_384 : prime 39402006196394479212279040100143613805079739270465446667948293404245721771496870329047266088258938001861606973112319.
Proof.
  apply (pock_check_sound _ [(19173790298027098165721053155794528970226934547887232785722672956982046098136719667167519737147526097,1,2)] 0).
  - vm_cast_no_check (eq_refl true).
  - refine (Forall_cons (19173790298027098165721053155794528970226934547887232785722672956982046098136719667167519737147526097,1,2) pr334_47526097 (Forall_nil _)).
Qed.
(** fields/secp/secp_r1/base_field.hpp:198 *)
Lemma pr_53 : prime 53.
Proof. apply small_prime_sound. vm_cast_no_check (eq_refl true). Qed.
Lemma pr_131 : prime 131.
Proof. apply small_prime_sound. vm_cast_no_check (eq_refl true). Qed.
Lemma pr_157 : prime 157.
Proof. apply small_prime_sound. vm_cast_no_check (eq_refl true). Qed.
Lemma pr_521 : prime 521.
Proof. apply small_prime_sound. vm_cast_no_check (eq_refl true). Qed.
Lemma pr_2731 : prime 2731.
Proof. apply small_prime_sound. vm_cast_no_check (eq_refl true). Qed.
Lemma pr_8191 : prime 8191.
Proof. apply small_prime_sound. vm_cast_no_check (eq_refl true). Qed.
Lemma pr_42641 : prime 42641.
Proof. apply small_prime_sound. vm_cast_no_check (eq_refl true). Qed.
Lemma pr_51481 : prime 51481.
Proof. apply small_prime_sound. vm_cast_no_check (eq_refl true). Qed.
Lemma pr_61681 : prime 61681.
Proof. apply small_prime_sound. vm_cast_no_check (eq_refl true). Qed.
Lemma pr_409891 : prime 409891.
Proof. apply small_prime_sound. vm_cast_no_check (eq_refl true). Qed.
Lemma pr_858001 : prime 858001.
Proof. apply small_prime_sound. vm_cast_no_check (eq_refl true). Qed.
Lemma pr_1381 : prime 1381.
Proof. apply small_prime_sound. vm_cast_no_check (eq_refl true). Qed.
Lemma pr_34110701 : prime 34110701.
Proof.
  apply (pock_check_sound _ [(1381,1,3)] 1222).
  - vm_cast_no_check (eq_refl true).
  - refine (Forall_cons (1381,1,3) pr_1381 (Forall_nil _)).
Qed.
Lemma prime_secp_r1_base_field_521 : prime 6864797660130609714981900799081393217269435300143305409394463459185543183397656052122559640661454554977296311391480858037121987999716643812574028291115057151.
Proof.
  apply (pock_check_sound _ [(53,1,3); (131,1,3); (157,1,3); (521,1,2); (1613,1,3); (2731,1,3); (8191,1,3); (42641,1,3); (51481,1,3); (61681,1,3); (409891,1,3); (858001,1,3); (34110701,1,3)] 13305045573156637963411129716470712955288737042581159).
  - vm_cast_no_check (eq_refl true).
  - refine (Forall_cons (53,1,3) pr_53 (Forall_cons (131,1,3) pr_131 (Forall_cons (157,1,3) pr_157 (Forall_cons (521,1,2) pr_521 (Forall_cons (1613,1,3) pr_1613 (Forall_cons (2731,1,3) pr_2731 (Forall_cons (8191,1,3) pr_8191 (Forall_cons (42641,1,3) pr_42641 (Forall_cons (51481,1,3) pr_51481 (Forall_cons (61681,1,3) pr_61681 (Forall_cons (409891,1,3) pr_409891 (Forall_cons (858001,1,3) pr_858001 (Forall_cons (34110701,1,3) pr_34110701 (Forall_nil _)))))))))))))).
Qed.
(** fields/secp/secp_r1/scalar_field.hpp:60 *)
Lemma pr_31 : prime 31.
Proof. apply small_prime_sound. vm_cast_no_check (eq_refl true). Qed.
Lemma pr_97 : prime 97.
Proof. apply small_prime_sound. vm_cast_no_check (eq_refl true). Qed.
Lemma pr_1123 : prime 1123.
Proof. apply small_prime_sound. vm_cast_no_check (eq_refl true). Qed.
Lemma pr_2791 : prime 2791.
Proof. apply small_prime_sound. vm_cast_no_check (eq_refl true). Qed.
Lemma pr105_22994233 : prime 32965410909254210768022022994233.
Proof.
  apply (pock_check_sound _ [(2,3,5); (31,1,2); (97,1,2); (1123,1,2); (2791,1,2)] 38909268404).
  - vm_cast_no_check (eq_refl true).
  - refine (Forall_cons (2,3,5) pr_2 (Forall_cons (31,1,2) pr_31 (Forall_cons (97,1,2) pr_97 (Forall_cons (1123,1,2) pr_1123 (Forall_cons (2791,1,2) pr_2791 (Forall_nil _)))))).
Qed.
Lemma prime_secp_r1_scalar_field_160 : prime 1461501637330902918203687197606826779884643492439.
Proof.
  apply (pock_check_sound _ [(32965410909254210768022022994233,1,2)] 0).
  - vm_cast_no_check (eq_refl true).
  - refine (Forall_cons (32965410909254210768022022994233,1,2) pr105_22994233 (Forall_nil _)).
Qed.
(** fields/secp/secp_r1/scalar_field.hpp:88 *)
Lemma pr_1693 : prime 1693.
Proof. apply small_prime_sound. vm_cast_no_check (eq_refl true). Qed.
Lemma pr_46245989 : prime 46245989.
Proof.
  apply (pock_check_sound _ [(1693,1,2)] 227).
  - vm_cast_no_check (eq_refl true).
  - refine (Forall_cons (1693,1,2) pr_1693 (Forall_nil _)).
Qed.
Lemma pr53_76697597 : prime 7244839476697597.
Proof.
  apply (pock_check_sound _ [(46245989,1,2)] 17920796).
  - vm_cast_no_check (eq_refl true).
  - refine (Forall_cons (46245989,1,2) pr_46245989 (Forall_nil _)).
Qed.
Lemma pr83_59195669 : prime 9564682313913860059195669.
Proof.
  apply (pock_check_sound _ [(7244839476697597,1,2)] 0).
  - vm_cast_no_check (eq_refl true).
  - refine (Forall_cons (7244839476697597,1,2) pr53_76697597 (Forall_nil _)).
Qed.
Lemma prime_secp_r1_scalar_field_192 : prime 6277101735386680763835789423176059013767194773182842284081.
Proof.
  apply (pock_check_sound _ [(9564682313913860059195669,1,2)] 601516071354950422911021).
  - vm_cast_no_check (eq_refl true).
  - refine (Forall_cons (9564682313913860059195669,1,2) pr83_59195669 (Forall_nil _)).
Qed.
(** fields/secp/secp_r1/scalar_field.hpp:116 *)
Lemma pr_87739 : prime 87739.
Proof. apply small_prime_sound. vm_cast_no_check (eq_refl true). Qed.
Lemma pr49_9776543 : prime 432621809776543.
Proof.
  apply (pock_check_sound _ [(87739,1,2)] 24851).
  - vm_cast_no_check (eq_refl true).
  - refine (Forall_cons (87739,1,2) pr_87739 (Forall_nil _)).
Qed.
Lemma pr87_56234449 : prime 136401162692544977256234449.
Proof.
  apply (pock_check_sound _ [(432621809776543,1,2)] 0).
  - vm_cast_no_check (eq_refl true).
  - refine (Forall_cons (432621809776543,1,2) pr49_9776543 (Forall_nil _)).
Qed.
Lemma pr105_74983797 : prime 34646440928557194402992574983797.
Proof.
  apply (pock_check_sound _ [(136401162692544977256234449,1,2)] 0).
  - vm_cast_no_check (eq_refl true).
  - refine (Forall_cons (136401162692544977256234449,1,2) pr87_56234449 (Forall_nil _)).
Qed.
Lemma pr139_47573209 : prime 375503554633724504423937478103159147573209.
Proof.
  apply (pock_check_sound _ [(34646440928557194402992574983797,1,2)] 0).
  - vm_cast_no_check (eq_refl true).
  - refine (Forall_cons (34646440928557194402992574983797,1,2) pr105_74983797 (Forall_nil _)).
Qed.
Lemma pr196_89351507 : prime 50520606258875818707470860153287666700917696099933389351507.
Proof.
  apply (pock_check_sound _ [(375503554633724504423937478103159147573209,1,2)] 0).
  - vm_cast_no_check (eq_refl true).
  - refine (Forall_cons (375503554633724504423937478103159147573209,1,2) pr139_47573209 (Forall_nil _)).
Qed.
Lemma prime_secp_r1_scalar_field_224 : prime 26959946667150639794667015087019625940457807714424391721682722368061.
Proof.
  apply (pock_check_sound _ [(50520606258875818707470860153287666700917696099933389351507,1,2)] 0).
  - vm_cast_no_check (eq_refl true).
  - refine (Forall_cons (50520606258875818707470860153287666700917696099933389351507,1,2) pr196_89351507 (Forall_nil _)).
Qed.
(** fields/secp/secp_r1/scalar_field.hpp:144 *)
Lemma pr_373 : prime 373.
Proof. apply small_prime_sound. vm_cast_no_check (eq_refl true). Qed.
Lemma pr_3407 : prime 3407.
Proof. apply small_prime_sound. vm_cast_no_check (eq_refl true). Qed.
Lemma pr_17449 : prime 17449.
Proof. apply small_prime_sound. vm_cast_no_check (eq_refl true). Qed.
Lemma pr_38189 : prime 38189.
Proof. apply small_prime_sound. vm_cast_no_check (eq_refl true). Qed.
Lemma pr_29 : prime 29.
Proof. apply small_prime_sound. vm_cast_no_check (eq_refl true). Qed.
Lemma pr29_11245691 : prime 311245691.
Proof.
  apply (pock_check_sound _ [(29,2,2)] 27).
  - vm_cast_no_check (eq_refl true).
  - refine (Forall_cons (29,2,2) pr_29 (Forall_nil _)).
Qed.
Lemma pr30_22491383 : prime 622491383.
Proof.
  apply (pock_check_sound _ [(311245691,1,2)] 0).
  - vm_cast_no_check (eq_refl true).
  - refine (Forall_cons (311245691,1,2) pr29_11245691 (Forall_nil _)).
Qed.
Lemma prime_secp_r1_scalar_field_256 : prime 115792089210356248762697446949407573529996955224135760342422259061068512044369.
Proof.
  apply (pock_check_sound _ [(131,1,2); (373,1,2); (3407,1,2); (17449,1,2); (38189,1,2); (622491383,1,2)] 38730077291073770392826738).
  - vm_cast_no_check (eq_refl true).
  - refine (Forall_cons (131,1,2) pr_131 (Forall_cons (373,1,2) pr_373 (Forall_cons (3407,1,2) pr_3407 (Forall_cons (17449,1,2) pr_17449 (Forall_cons (38189,1,2) pr_38189 (Forall_cons (622491383,1,2) pr30_22491383 (Forall_nil _))))))).
Qed.
(** fields/secp/secp_r1/scalar_field.hpp:172 *)
Lemma pr_19 : prime 19.
Proof. apply small_prime_sound. vm_cast_no_check (eq_refl true). Qed.
Lemma pr_73 : prime 73.
Proof. apply small_prime_sound. vm_cast_no_check (eq_refl true). Qed.
Lemma pr29_72109983 : prime 272109983.
Proof.
  apply (pock_check_sound _ [(19,1,2); (73,1,2)] 618).
  - vm_cast_no_check (eq_refl true).
  - refine (Forall_cons (19,1,2) pr_19 (Forall_cons (73,1,2) pr_73 (Forall_nil _))).
Qed.
Lemma pr38_72385721 : prime 228572385721.
Proof.
  apply (pock_check_sound _ [(272109983,1,2)] 0).
  - vm_cast_no_check (eq_refl true).
  - refine (Forall_cons (272109983,1,2) pr29_72109983 (Forall_nil _)).
Qed.
Lemma pr45_83343543 : prime 23314383343543.
Proof.
  apply (pock_check_sound _ [(228572385721,1,2)] 0).
  - vm_cast_no_check (eq_refl true).
  - refine (Forall_cons (228572385721,1,2) pr38_72385721 (Forall_nil _)).
Qed.
Lemma pr69_27833817 : prime 426632512014427833817.
Proof.
  apply (pock_check_sound _ [(23314383343543,1,2)] 0).
  - vm_cast_no_check (eq_refl true).
  - refine (Forall_cons (23314383343543,1,2) pr45_83343543 (Forall_nil _)).
Qed.
Lemma pr91_98084319 : prime 1495199339761412565498084319.
Proof.
  apply (pock_check_sound _ [(426632512014427833817,1,2)] 0).
  - vm_cast_no_check (eq_refl true).
  - refine (Forall_cons (426632512014427833817,1,2) pr69_27833817 (Forall_nil _)).
Qed.
Lemma pr94_77011829 : prime 17942392077136950785977011829.
Proof.
  apply (pock_check_sound _ [(1495199339761412565498084319,1,2)] 0).
  - vm_cast_no_check (eq_refl true).
  - refine (Forall_cons (1495199339761412565498084319,1,2) pr91_98084319 (Forall_nil _)).
Qed.
Lemma pr200_12096307 : prime 1059392654943455286185473617842338478315215895509773412096307.
Proof.
  apply (pock_check_sound _ [(17942392077136950785977011829,1,2)] 13644718768117732071247840903).
  - vm_cast_no_check (eq_refl true).
  - refine (Forall_cons (17942392077136950785977011829,1,2) pr94_77011829 (Forall_nil _)).
Qed.
Lemma pr281_26390471 : prime 3055465788140352002733946906144561090641249606160407884365391979704929268480326390471.
Proof.
  apply (pock_check_sound _ [(1059392654943455286185473617842338478315215895509773412096307,1,2)] 0).
  - vm_cast_no_check (eq_refl true).
  - refine (Forall_cons (1059392654943455286185473617842338478315215895509773412096307,1,2) pr200_12096307 (Forall_nil _)).
Qed.
Lemma prime_secp_r1_scalar_field_384 : prime 39402006196394479212279040100143613805079739270465446667946905279627659399113263569398956308152294913554433653942643.
Proof.
  apply (pock_check_sound _ [(3055465788140352002733946906144561090641249606160407884365391979704929268480326390471,1,2)] 0).
  - vm_cast_no_check (eq_refl true).
  - refine (Forall_cons (3055465788140352002733946906144561090641249606160407884365391979704929268480326390471,1,2) pr281_26390471 (Forall_nil _)).
Qed.
