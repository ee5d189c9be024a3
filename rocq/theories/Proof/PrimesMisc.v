(** Generated primality certificates (Pocklington with partial factorisations;
    trial division below 10^6).   *)
From Coq Require Import ZArith Znumtheory List.
From Verif Require Import Proof.Pocklington.
Import ListNotations.
Local Open Scope Z_scope.

(** fields/babyjubjub/scalar_field.hpp:54 *)
Lemma pr_43189 : prime 43189.
Proof. apply small_prime_sound. vm_cast_no_check (eq_refl true). Qed.
Lemma pr35_85742523 : prime 25485742523.
Proof.
  apply (pock_check_sound _ [(43189,1,2)] 28640).
  - vm_cast_no_check (eq_refl true).
  - refine (Forall_cons (43189,1,2) pr_43189 (Forall_nil _)).
Qed.
Lemma pr58_4015601 : prime 202795150404015601.
Proof.
  apply (pock_check_sound _ [(25485742523,1,2)] 0).
  - vm_cast_no_check (eq_refl true).
  - refine (Forall_cons (25485742523,1,2) pr35_85742523 (Forall_nil _)).
Qed.
Lemma pr69_45198929 : prime 431548080059745198929.
Proof.
  apply (pock_check_sound _ [(202795150404015601,1,2)] 0).
  - vm_cast_no_check (eq_refl true).
  - refine (Forall_cons (202795150404015601,1,2) pr58_4015601 (Forall_nil _)).
Qed.
Lemma pr85_10608359 : prime 32151195060611136810608359.
Proof.
  apply (pock_check_sound _ [(431548080059745198929,1,2)] 0).
  - vm_cast_no_check (eq_refl true).
  - refine (Forall_cons (431548080059745198929,1,2) pr69_45198929 (Forall_nil _)).
Qed.
Lemma prime_babyjubjub_scalar_field : prime 2736030358979909402780800718157159386076813972158567259200215660948447373041.
Proof.
  apply (pock_check_sound _ [(32151195060611136810608359,1,2)] 23258618026492003206210520).
  - vm_cast_no_check (eq_refl true).
  - refine (Forall_cons (32151195060611136810608359,1,2) pr85_10608359 (Forall_nil _)).
Qed.
(** fields/curve25519/base_field.hpp:60 *)
Lemma pr_991 : prime 991.
Proof. apply small_prime_sound. vm_cast_no_check (eq_refl true). Qed.
Lemma pr_8574133 : prime 8574133.
Proof.
  apply (pock_check_sound _ [(991,1,2)] 723).
  - vm_cast_no_check (eq_refl true).
  - refine (Forall_cons (991,1,2) pr_991 (Forall_nil _)).
Qed.
Lemma pr51_69386763 : prime 1919519569386763.
Proof.
  apply (pock_check_sound _ [(8574133,1,2)] 945855).
  - vm_cast_no_check (eq_refl true).
  - refine (Forall_cons (8574133,1,2) pr_8574133 (Forall_nil _)).
Qed.
Lemma pr116_43864801 : prime 75445702479781427272750846543864801.
Proof.
  apply (pock_check_sound _ [(1919519569386763,1,2)] 388938484030411).
  - vm_cast_no_check (eq_refl true).
  - refine (Forall_cons (1919519569386763,1,2) pr51_69386763 (Forall_nil _)).
Qed.
Lemma pr236_54340907 : prime 74058212732561358302231226437062788676166966415465897661863160754340907.
Proof.
  apply (pock_check_sound _ [(75445702479781427272750846543864801,1,2)] 815294123582136799238856568829692).
  - vm_cast_no_check (eq_refl true).
  - refine (Forall_cons (75445702479781427272750846543864801,1,2) pr116_43864801 (Forall_nil _)).
Qed.
Lemma prime_curve25519_base_field : prime 57896044618658097711785492504343953926634992332820282019728792003956564819949.
Proof.
  apply (pock_check_sound _ [(74058212732561358302231226437062788676166966415465897661863160754340907,1,2)] 0).
  - vm_cast_no_check (eq_refl true).
  - refine (Forall_cons (74058212732561358302231226437062788676166966415465897661863160754340907,1,2) pr236_54340907 (Forall_nil _)).
Qed.
(** fields/curve25519/scalar_field.hpp:61 *)
Lemma pr_30703 : prime 30703.
Proof. apply small_prime_sound. vm_cast_no_check (eq_refl true). Qed.
Lemma pr_82163 : prime 82163.
Proof. apply small_prime_sound. vm_cast_no_check (eq_refl true). Qed.
Lemma pr72_85063343 : prime 3044861653679985063343.
Proof.
  apply (pock_check_sound _ [(30703,1,2); (82163,1,2)] 1181895135).
  - vm_cast_no_check (eq_refl true).
  - refine (Forall_cons (30703,1,2) pr_30703 (Forall_cons (82163,1,2) pr_82163 (Forall_nil _))).
Qed.
Lemma pr108_25763697 : prime 198211423230930754013084525763697.
Proof.
  apply (pock_check_sound _ [(3044861653679985063343,1,2)] 0).
  - vm_cast_no_check (eq_refl true).
  - refine (Forall_cons (3044861653679985063343,1,2) pr72_85063343 (Forall_nil _)).
Qed.
Lemma prime_curve25519_scalar_field : prime 7237005577332262213973186563042994240857116359379907606001950938285454250989.
Proof.
  apply (pock_check_sound _ [(198211423230930754013084525763697,1,2)] 86546165922497480632256400342650).
  - vm_cast_no_check (eq_refl true).
  - refine (Forall_cons (198211423230930754013084525763697,1,2) pr108_25763697 (Forall_nil _)).
Qed.
(** fields/frp_v1/base_field.hpp:59 *)
Lemma pr_12227 : prime 12227.
Proof. apply small_prime_sound. vm_cast_no_check (eq_refl true). Qed.
Lemma pr_10882031 : prime 10882031.
Proof.
  apply (pock_check_sound _ [(12227,1,2)] 0).
  - vm_cast_no_check (eq_refl true).
  - refine (Forall_cons (12227,1,2) pr_12227 (Forall_nil _)).
Qed.
Lemma pr46_7066067 : prime 49290007066067.
Proof.
  apply (pock_check_sound _ [(10882031,1,2)] 0).
  - vm_cast_no_check (eq_refl true).
  - refine (Forall_cons (10882031,1,2) pr_10882031 (Forall_nil _)).
Qed.
Lemma pr92_32605213 : prime 3972738854007370570932605213.
Proof.
  apply (pock_check_sound _ [(49290007066067,1,2)] 31309268334368).
  - vm_cast_no_check (eq_refl true).
  - refine (Forall_cons (49290007066067,1,2) pr46_7066067 (Forall_nil _)).
Qed.
Lemma pr187_40093581 : prime 112356767778179104648003230782815205059434761578340093581.
Proof.
  apply (pock_check_sound _ [(3972738854007370570932605213,1,2)] 472769500392901462428645168).
  - vm_cast_no_check (eq_refl true).
  - refine (Forall_cons (3972738854007370570932605213,1,2) pr92_32605213 (Forall_nil _)).
Qed.
Lemma pr255_11196929 : prime 54727285665848639308835362515367564072984674823934369078600661778098011196929.
Proof.
  apply (pock_check_sound _ [(112356767778179104648003230782815205059434761578340093581,1,2)] 0).
  - vm_cast_no_check (eq_refl true).
  - refine (Forall_cons (112356767778179104648003230782815205059434761578340093581,1,2) pr187_40093581 (Forall_nil _)).
Qed.
Lemma prime_frp_v1_base_fields_256 : prime 109454571331697278617670725030735128145969349647868738157201323556196022393859.
Proof.
  apply (pock_check_sound _ [(54727285665848639308835362515367564072984674823934369078600661778098011196929,1,2)] 0).
  - vm_cast_no_check (eq_refl true).
  - refine (Forall_cons (54727285665848639308835362515367564072984674823934369078600661778098011196929,1,2) pr255_11196929 (Forall_nil _)).
Qed.
(** fields/frp_v1/scalar_field.hpp:59 *)
Lemma pr_2543 : prime 2543.
Proof. apply small_prime_sound. vm_cast_no_check (eq_refl true). Qed.
Lemma pr31_93654617 : prime 1293654617.
Proof.
  apply (pock_check_sound _ [(2543,1,2)] 108).
  - vm_cast_no_check (eq_refl true).
  - refine (Forall_cons (2543,1,2) pr_2543 (Forall_nil _)).
Qed.
Lemma pr79_16735663 : prime 548794774797769816735663.
Proof.
  apply (pock_check_sound _ [(1293654617,1,2)] 77360777).
  - vm_cast_no_check (eq_refl true).
  - refine (Forall_cons (1293654617,1,2) pr31_93654617 (Forall_nil _)).
Qed.
Lemma pr131_7660393 : prime 1720805198043061735464389957585107660393.
Proof.
  apply (pock_check_sound _ [(548794774797769816735663,1,2)] 0).
  - vm_cast_no_check (eq_refl true).
  - refine (Forall_cons (548794774797769816735663,1,2) pr79_16735663 (Forall_nil _)).
Qed.
Lemma pr187_88564991 : prime 160847769765829662053086933326768494988741892623088564991.
Proof.
  apply (pock_check_sound _ [(1720805198043061735464389957585107660393,1,2)] 0).
  - vm_cast_no_check (eq_refl true).
  - refine (Forall_cons (1720805198043061735464389957585107660393,1,2) pr131_7660393 (Forall_nil _)).
Qed.
Lemma prime_frp_v1_scalar_field_256 : prime 109454571331697278617670725030735128146004546811402412653072203207726079563233.
Proof.
  apply (pock_check_sound _ [(160847769765829662053086933326768494988741892623088564991,1,2)] 0).
  - vm_cast_no_check (eq_refl true).
  - refine (Forall_cons (160847769765829662053086933326768494988741892623088564991,1,2) pr187_88564991 (Forall_nil _)).
Qed.
(** fields/goldilocks64/base_field.hpp:56 *)
Lemma pr_2 : prime 2.
Proof. apply small_prime_sound. vm_cast_no_check (eq_refl true). Qed.
Lemma prime_goldilocks64_base_field : prime 18446744069414584321.
Proof.
  apply (pock_check_sound _ [(2,32,7)] 0).
  - vm_cast_no_check (eq_refl true).
  - refine (Forall_cons (2,32,7) pr_2 (Forall_nil _)).
Qed.
(** fields/gost_A/base_field.hpp:59 *)
Lemma pr_696719 : prime 696719.
Proof. apply small_prime_sound. vm_cast_no_check (eq_refl true). Qed.
Lemma pr_299011 : prime 299011.
Proof. apply small_prime_sound. vm_cast_no_check (eq_refl true). Qed.
Lemma pr_3588133 : prime 3588133.
Proof.
  apply (pock_check_sound _ [(299011,1,2)] 0).
  - vm_cast_no_check (eq_refl true).
  - refine (Forall_cons (299011,1,2) pr_299011 (Forall_nil _)).
Qed.
Lemma pr_86115193 : prime 86115193.
Proof.
  apply (pock_check_sound _ [(3588133,1,2)] 0).
  - vm_cast_no_check (eq_refl true).
  - refine (Forall_cons (3588133,1,2) pr_3588133 (Forall_nil _)).
Qed.
Lemma pr134_43243453 : prime 14276683752608433211265709130033043243453.
Proof.
  apply (pock_check_sound _ [(696719,1,2); (86115193,1,2)] 1004465797408).
  - vm_cast_no_check (eq_refl true).
  - refine (Forall_cons (696719,1,2) pr_696719 (Forall_cons (86115193,1,2) pr_86115193 (Forall_nil _))).
Qed.
Lemma prime_gost_A_base_field_256 : prime 115792089237316195423570985008687907853269984665640564039457584007913129639319.
Proof.
  apply (pock_check_sound _ [(14276683752608433211265709130033043243453,1,2)] 0).
  - vm_cast_no_check (eq_refl true).
  - refine (Forall_cons (14276683752608433211265709130033043243453,1,2) pr134_43243453 (Forall_nil _)).
Qed.
(** fields/gost_A/scalar_field.hpp:59 *)
Lemma pr_835897 : prime 835897.
Proof. apply small_prime_sound. vm_cast_no_check (eq_refl true). Qed.
Lemma pr50_17691569 : prime 674835817691569.
Proof.
  apply (pock_check_sound _ [(835897,1,2)] 678738).
  - vm_cast_no_check (eq_refl true).
  - refine (Forall_cons (835897,1,2) pr_835897 (Forall_nil _)).
Qed.
Lemma pr88_71553621 : prime 203279892443917995271553621.
Proof.
  apply (pock_check_sound _ [(674835817691569,1,2)] 0).
  - vm_cast_no_check (eq_refl true).
  - refine (Forall_cons (674835817691569,1,2) pr50_17691569 (Forall_nil _)).
Qed.
Lemma pr186_8748581 : prime 50791017540450015071456350284045037169936855765408748581.
Proof.
  apply (pock_check_sound _ [(203279892443917995271553621,1,2)] 26570304045924462182800770).
  - vm_cast_no_check (eq_refl true).
  - refine (Forall_cons (203279892443917995271553621,1,2) pr88_71553621 (Forall_nil _)).
Qed.
Lemma prime_gost_A_scalar_field_256 : prime 115792089237316195423570985008687907853073762908499243225378155805079068850323.
Proof.
  apply (pock_check_sound _ [(50791017540450015071456350284045037169936855765408748581,1,2)] 0).
  - vm_cast_no_check (eq_refl true).
  - refine (Forall_cons (50791017540450015071456350284045037169936855765408748581,1,2) pr186_8748581 (Forall_nil _)).
Qed.
(** fields/jubjub/scalar_field.hpp:54 *)
Lemma pr_62701 : prime 62701.
Proof. apply small_prime_sound. vm_cast_no_check (eq_refl true). Qed.
Lemma pr44_72538621 : prime 16356472538621.
Proof.
  apply (pock_check_sound _ [(62701,1,2)] 28459).
  - vm_cast_no_check (eq_refl true).
  - refine (Forall_cons (62701,1,2) pr_62701 (Forall_nil _)).
Qed.
Lemma pr60_1769069 : prime 623312455501769069.
Proof.
  apply (pock_check_sound _ [(16356472538621,1,2)] 0).
  - vm_cast_no_check (eq_refl true).
  - refine (Forall_cons (16356472538621,1,2) pr44_72538621 (Forall_nil _)).
Qed.
Lemma pr98_41376149 : prime 255074062430788457494141376149.
Proof.
  apply (pock_check_sound _ [(623312455501769069,1,2)] 0).
  - vm_cast_no_check (eq_refl true).
  - refine (Forall_cons (623312455501769069,1,2) pr60_1769069 (Forall_nil _)).
Qed.
Lemma prime_jubjub_scalar_field : prime 6554484396890773809930967563523245729705921265872317281365359162392183254199.
Proof.
  apply (pock_check_sound _ [(255074062430788457494141376149,1,2)] 180811741926640329769696881834).
  - vm_cast_no_check (eq_refl true).
  - refine (Forall_cons (255074062430788457494141376149,1,2) pr98_41376149 (Forall_nil _)).
Qed.
(** fields/maxprime.hpp:56 *)
Lemma pr_2131 : prime 2131.
Proof. apply small_prime_sound. vm_cast_no_check (eq_refl true). Qed.
Lemma pr_15331 : prime 15331.
Proof. apply small_prime_sound. vm_cast_no_check (eq_refl true). Qed.
Lemma pr43_72617641 : prime 5594472617641.
Proof.
  apply (pock_check_sound _ [(2131,1,2); (15331,1,2)] 0).
  - vm_cast_no_check (eq_refl true).
  - refine (Forall_cons (2131,1,2) pr_2131 (Forall_cons (15331,1,2) pr_15331 (Forall_nil _))).
Qed.
Lemma prime_maxprime_64 : prime 18446744073709551557.
Proof.
  apply (pock_check_sound _ [(5594472617641,1,2)] 0).
  - vm_cast_no_check (eq_refl true).
  - refine (Forall_cons (5594472617641,1,2) pr43_72617641 (Forall_nil _)).
Qed.
(** fields/pallas/base_field.hpp:55 *)
Lemma pr_2531 : prime 2531.
Proof. apply small_prime_sound. vm_cast_no_check (eq_refl true). Qed.
Lemma pr_115603 : prime 115603.
Proof. apply small_prime_sound. vm_cast_no_check (eq_refl true). Qed.
Lemma pr_3767 : prime 3767.
Proof. apply small_prime_sound. vm_cast_no_check (eq_refl true). Qed.
Lemma pr_1197907 : prime 1197907.
Proof.
  apply (pock_check_sound _ [(3767,1,2)] 0).
  - vm_cast_no_check (eq_refl true).
  - refine (Forall_cons (3767,1,2) pr_3767 (Forall_nil _)).
Qed.
Lemma pr143_97519453 : prime 8999194758858563409123804352480028797519453.
Proof.
  apply (pock_check_sound _ [(2531,1,2); (115603,1,2); (1197907,1,2)] 207760549887709).
  - vm_cast_no_check (eq_refl true).
  - refine (Forall_cons (2531,1,2) pr_2531 (Forall_cons (115603,1,2) pr_115603 (Forall_cons (1197907,1,2) pr_1197907 (Forall_nil _)))).
Qed.
Lemma prime_pallas_base_field : prime 28948022309329048855892746252171976963363056481941560715954676764349967630337.
Proof.
  apply (pock_check_sound _ [(8999194758858563409123804352480028797519453,1,2)] 0).
  - vm_cast_no_check (eq_refl true).
  - refine (Forall_cons (8999194758858563409123804352480028797519453,1,2) pr143_97519453 (Forall_nil _)).
Qed.
(** fields/sect/sect_k1/scalar_field.hpp:59 *)
Lemma pr_174413 : prime 174413.
Proof. apply small_prime_sound. vm_cast_no_check (eq_refl true). Qed.
Lemma pr34_22285473 : prime 15722285473.
Proof.
  apply (pock_check_sound _ [(174413,1,2)] 0).
  - vm_cast_no_check (eq_refl true).
  - refine (Forall_cons (174413,1,2) pr_174413 (Forall_nil _)).
Qed.
Lemma pr93_46096277 : prime 9819778349789663832246096277.
Proof.
  apply (pock_check_sound _ [(15722285473,1,2)] 9601814560).
  - vm_cast_no_check (eq_refl true).
  - refine (Forall_cons (15722285473,1,2) pr34_22285473 (Forall_nil _)).
Qed.
Lemma pr103_58413113 : prime 8405730267419952240402658413113.
Proof.
  apply (pock_check_sound _ [(9819778349789663832246096277,1,2)] 0).
  - vm_cast_no_check (eq_refl true).
  - refine (Forall_cons (9819778349789663832246096277,1,2) pr93_46096277 (Forall_nil _)).
Qed.
Lemma prime_sect_k1_scalar_field_163 : prime 5846006549323611672814741753598448348329118574063.
Proof.
  apply (pock_check_sound _ [(8405730267419952240402658413113,1,2)] 0).
  - vm_cast_no_check (eq_refl true).
  - refine (Forall_cons (8405730267419952240402658413113,1,2) pr103_58413113 (Forall_nil _)).
Qed.
(** fields/sm2p_v1/base_field.hpp:59 *)
Lemma pr_5711 : prime 5711.
Proof. apply small_prime_sound. vm_cast_no_check (eq_refl true). Qed.
Lemma pr32_17783777 : prime 3017783777.
Proof.
  apply (pock_check_sound _ [(5711,1,2)] 3003).
  - vm_cast_no_check (eq_refl true).
  - refine (Forall_cons (5711,1,2) pr_5711 (Forall_nil _)).
Qed.
Lemma pr43_51449027 : prime 4641351449027.
Proof.
  apply (pock_check_sound _ [(3017783777,1,2)] 0).
  - vm_cast_no_check (eq_refl true).
  - refine (Forall_cons (3017783777,1,2) pr32_17783777 (Forall_nil _)).
Qed.
Lemma pr_67 : prime 67.
Proof. apply small_prime_sound. vm_cast_no_check (eq_refl true). Qed.
Lemma pr_8214737 : prime 8214737.
Proof.
  apply (pock_check_sound _ [(2,4,3); (67,1,2)] 158).
  - vm_cast_no_check (eq_refl true).
  - refine (Forall_cons (2,4,3) pr_2 (Forall_cons (67,1,2) pr_67 (Forall_nil _))).
Qed.
Lemma pr49_96639753 : prime 417514796639753.
Proof.
  apply (pock_check_sound _ [(8214737,1,2)] 1536673).
  - vm_cast_no_check (eq_refl true).
  - refine (Forall_cons (8214737,1,2) pr_8214737 (Forall_nil _)).
Qed.
Lemma prime_sm2p_v1_base_field_256 : prime 115792089210356248756420345214020892766250353991924191454421193933289684991999.
Proof.
  apply (pock_check_sound _ [(4641351449027,1,2); (417514796639753,1,2)] 1556622871844454608820037227).
  - vm_cast_no_check (eq_refl true).
  - refine (Forall_cons (4641351449027,1,2) pr43_51449027 (Forall_cons (417514796639753,1,2) pr49_96639753 (Forall_nil _))).
Qed.
(** fields/sm2p_v1/scalar_field.hpp:59 *)
Lemma pr_181 : prime 181.
Proof. apply small_prime_sound. vm_cast_no_check (eq_refl true). Qed.
Lemma pr_233 : prime 233.
Proof. apply small_prime_sound. vm_cast_no_check (eq_refl true). Qed.
Lemma pr_17965699 : prime 17965699.
Proof.
  apply (pock_check_sound _ [(181,1,2); (233,1,2)] 0).
  - vm_cast_no_check (eq_refl true).
  - refine (Forall_cons (181,1,2) pr_181 (Forall_cons (233,1,2) pr_233 (Forall_nil _))).
Qed.
Lemma pr_12149 : prime 12149.
Proof. apply small_prime_sound. vm_cast_no_check (eq_refl true). Qed.
Lemma pr27_7615843 : prime 107615843.
Proof.
  apply (pock_check_sound _ [(12149,1,2)] 0).
  - vm_cast_no_check (eq_refl true).
  - refine (Forall_cons (12149,1,2) pr_12149 (Forall_nil _)).
Qed.
Lemma pr134_62753637 : prime 18120927127286907576013935251791662753637.
Proof.
  apply (pock_check_sound _ [(17965699,1,2); (107615843,1,2)] 303792156069922).
  - vm_cast_no_check (eq_refl true).
  - refine (Forall_cons (17965699,1,2) pr_17965699 (Forall_cons (107615843,1,2) pr27_7615843 (Forall_nil _))).
Qed.
Lemma pr197_77724521 : prime 125197554539772723432468576818475380947471091418362477724521.
Proof.
  apply (pock_check_sound _ [(18120927127286907576013935251791662753637,1,2)] 0).
  - vm_cast_no_check (eq_refl true).
  - refine (Forall_cons (18120927127286907576013935251791662753637,1,2) pr134_62753637 (Forall_nil _)).
Qed.
Lemma prime_sm2p_v1_scalar_field_256 : prime 115792089210356248756420345214020892766061623724957744567843809356293439045923.
Proof.
  apply (pock_check_sound _ [(125197554539772723432468576818475380947471091418362477724521,1,2)] 0).
  - vm_cast_no_check (eq_refl true).
  - refine (Forall_cons (125197554539772723432468576818475380947471091418362477724521,1,2) pr197_77724521 (Forall_nil _)).
Qed.
(** fields/vesta/base_field.hpp:58 *)
Lemma pr_31649 : prime 31649.
Proof. apply small_prime_sound. vm_cast_no_check (eq_refl true). Qed.
Lemma pr43_47429827 : prime 5239247429827.
Proof.
  apply (pock_check_sound _ [(31649,1,2)] 18003).
  - vm_cast_no_check (eq_refl true).
  - refine (Forall_cons (31649,1,2) pr_31649 (Forall_nil _)).
Qed.
Lemma pr114_99072717 : prime 10427374428728808478656897599072717.
Proof.
  apply (pock_check_sound _ [(5239247429827,1,2)] 4567356564066).
  - vm_cast_no_check (eq_refl true).
  - refine (Forall_cons (5239247429827,1,2) pr43_47429827 (Forall_nil _)).
Qed.
Lemma prime_vesta_base_field : prime 28948022309329048855892746252171976963363056481941647379679742748393362948097.
Proof.
  apply (pock_check_sound _ [(10427374428728808478656897599072717,1,2)] 5354493798314144180918957479662458).
  - vm_cast_no_check (eq_refl true).
  - refine (Forall_cons (10427374428728808478656897599072717,1,2) pr114_99072717 (Forall_nil _)).
Qed.
