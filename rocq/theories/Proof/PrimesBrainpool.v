(** Generated primality certificates (Pocklington with partial factorisations;
    trial division below 10^6).   *)
From Coq Require Import ZArith Znumtheory List.
From Verif Require Import Proof.Pocklington.
Import ListNotations.
Local Open Scope Z_scope.

(** fields/brainpool_r1/base_field.hpp:59 *)
Lemma pr_3559 : prime 3559.
Proof. apply small_prime_sound. vm_cast_no_check (eq_refl true). Qed.
Lemma pr35_88353957 : prime 28988353957.
Proof.
  apply (pock_check_sound _ [(3559,1,2)] 2089).
  - vm_cast_no_check (eq_refl true).
  - refine (Forall_cons (3559,1,2) pr_3559 (Forall_nil _)).
Qed.
Lemma pr57_63719683 : prime 82977018063719683.
Proof.
  apply (pock_check_sound _ [(28988353957,1,2)] 0).
  - vm_cast_no_check (eq_refl true).
  - refine (Forall_cons (28988353957,1,2) pr35_88353957 (Forall_nil _)).
Qed.
Lemma prime_brainpool_r1_base_field_160 : prime 1332297598440044874827085558802491743757193798159.
Proof.
  apply (pock_check_sound _ [(82977018063719683,1,2)] 43901332726063344).
  - vm_cast_no_check (eq_refl true).
  - refine (Forall_cons (82977018063719683,1,2) pr57_63719683 (Forall_nil _)).
Qed.
(** fields/brainpool_r1/base_field.hpp:84 *)
Lemma pr_11 : prime 11.
Proof. apply small_prime_sound. vm_cast_no_check (eq_refl true). Qed.
Lemma pr_73 : prime 73.
Proof. apply small_prime_sound. vm_cast_no_check (eq_refl true). Qed.
Lemma pr38_97226743 : prime 210497226743.
Proof.
  apply (pock_check_sound _ [(11,3,2); (73,1,3)] 28847).
  - vm_cast_no_check (eq_refl true).
  - refine (Forall_cons (11,3,2) pr_11 (Forall_cons (73,1,3) pr_73 (Forall_nil _))).
Qed.
Lemma pr62_28919033 : prime 4517359736728919033.
Proof.
  apply (pock_check_sound _ [(210497226743,1,2)] 0).
  - vm_cast_no_check (eq_refl true).
  - refine (Forall_cons (210497226743,1,2) pr38_97226743 (Forall_nil _)).
Qed.
Lemma pr87_67110741 : prime 111604895836482593267110741.
Proof.
  apply (pock_check_sound _ [(4517359736728919033,1,2)] 0).
  - vm_cast_no_check (eq_refl true).
  - refine (Forall_cons (4517359736728919033,1,2) pr62_28919033 (Forall_nil _)).
Qed.
Lemma pr141_93022253 : prime 2218130291019312052925190546351456293022253.
Proof.
  apply (pock_check_sound _ [(111604895836482593267110741,1,2)] 0).
  - vm_cast_no_check (eq_refl true).
  - refine (Forall_cons (111604895836482593267110741,1,2) pr87_67110741 (Forall_nil _)).
Qed.
Lemma prime_brainpool_r1_base_field_192 : prime 4781668983906166242955001894344923773259119655253013193367.
Proof.
  apply (pock_check_sound _ [(2218130291019312052925190546351456293022253,1,2)] 0).
  - vm_cast_no_check (eq_refl true).
  - refine (Forall_cons (2218130291019312052925190546351456293022253,1,2) pr141_93022253 (Forall_nil _)).
Qed.
(** fields/brainpool_r1/base_field.hpp:110 *)
Lemma pr_3257 : prime 3257.
Proof. apply small_prime_sound. vm_cast_no_check (eq_refl true). Qed.
Lemma pr31_42793987 : prime 1942793987.
Proof.
  apply (pock_check_sound _ [(3257,1,2)] 466).
  - vm_cast_no_check (eq_refl true).
  - refine (Forall_cons (3257,1,2) pr_3257 (Forall_nil _)).
Qed.
Lemma pr48_21309471 : prime 273564821309471.
Proof.
  apply (pock_check_sound _ [(1942793987,1,2)] 0).
  - vm_cast_no_check (eq_refl true).
  - refine (Forall_cons (1942793987,1,2) pr31_42793987 (Forall_nil _)).
Qed.
Lemma pr64_70550679 : prime 18114915337470550679.
Proof.
  apply (pock_check_sound _ [(273564821309471,1,2)] 0).
  - vm_cast_no_check (eq_refl true).
  - refine (Forall_cons (273564821309471,1,2) pr48_21309471 (Forall_nil _)).
Qed.
Lemma pr81_99579593 : prime 1685556642320959799579593.
Proof.
  apply (pock_check_sound _ [(18114915337470550679,1,2)] 0).
  - vm_cast_no_check (eq_refl true).
  - refine (Forall_cons (18114915337470550679,1,2) pr64_70550679 (Forall_nil _)).
Qed.
Lemma pr114_13119191 : prime 13036179062997789943375385313119191.
Proof.
  apply (pock_check_sound _ [(1685556642320959799579593,1,2)] 0).
  - vm_cast_no_check (eq_refl true).
  - refine (Forall_cons (1685556642320959799579593,1,2) pr81_99579593 (Forall_nil _)).
Qed.
Lemma prime_brainpool_r1_base_field_224 : prime 22721622932454352787552537995910928073340732145944992304435472941311.
Proof.
  apply (pock_check_sound _ [(13036179062997789943375385313119191,1,2)] 0).
  - vm_cast_no_check (eq_refl true).
  - refine (Forall_cons (13036179062997789943375385313119191,1,2) pr114_13119191 (Forall_nil _)).
Qed.
(** fields/brainpool_r1/base_field.hpp:136 *)
Lemma pr_829 : prime 829.
Proof. apply small_prime_sound. vm_cast_no_check (eq_refl true). Qed.
Lemma pr_25659209 : prime 25659209.
Proof.
  apply (pock_check_sound _ [(829,1,2)] 278).
  - vm_cast_no_check (eq_refl true).
  - refine (Forall_cons (829,1,2) pr_829 (Forall_nil _)).
Qed.
Lemma pr70_47158893 : prime 1139592334882447158893.
Proof.
  apply (pock_check_sound _ [(25659209,1,2)] 4690011).
  - vm_cast_no_check (eq_refl true).
  - refine (Forall_cons (25659209,1,2) pr_25659209 (Forall_nil _)).
Qed.
Lemma pr191_67530247 : prime 3059213862715144055733503214373292934438943635608167530247.
Proof.
  apply (pock_check_sound _ [(1139592334882447158893,1,2)] 200616439565150876950).
  - vm_cast_no_check (eq_refl true).
  - refine (Forall_cons (1139592334882447158893,1,2) pr70_47158893 (Forall_nil _)).
Qed.
Lemma prime_brainpool_r1_base_field_256 : prime 76884956397045344220809746629001649093037950200943055203735601445031516197751.
Proof.
  apply (pock_check_sound _ [(3059213862715144055733503214373292934438943635608167530247,1,2)] 0).
  - vm_cast_no_check (eq_refl true).
  - refine (Forall_cons (3059213862715144055733503214373292934438943635608167530247,1,2) pr191_67530247 (Forall_nil _)).
Qed.
(** fields/brainpool_r1/base_field.hpp:162 *)
Lemma pr_17 : prime 17.
Proof. apply small_prime_sound. vm_cast_no_check (eq_refl true). Qed.
Lemma pr_24841 : prime 24841.
Proof. apply small_prime_sound. vm_cast_no_check (eq_refl true). Qed.
Lemma pr_546677 : prime 546677.
Proof. apply small_prime_sound. vm_cast_no_check (eq_refl true). Qed.
Lemma pr38_22784561 : prime 161422784561.
Proof.
  apply (pock_check_sound _ [(546677,1,2)] 0).
  - vm_cast_no_check (eq_refl true).
  - refine (Forall_cons (546677,1,2) pr_546677 (Forall_nil _)).
Qed.
Lemma pr42_10122099 : prime 2905610122099.
Proof.
  apply (pock_check_sound _ [(161422784561,1,2)] 0).
  - vm_cast_no_check (eq_refl true).
  - refine (Forall_cons (161422784561,1,2) pr38_22784561 (Forall_nil _)).
Qed.
Lemma pr51_70304789 : prime 1197111370304789.
Proof.
  apply (pock_check_sound _ [(2905610122099,1,2)] 0).
  - vm_cast_no_check (eq_refl true).
  - refine (Forall_cons (2905610122099,1,2) pr42_10122099 (Forall_nil _)).
Qed.
Lemma pr54_43657469 : prime 14365336443657469.
Proof.
  apply (pock_check_sound _ [(1197111370304789,1,2)] 0).
  - vm_cast_no_check (eq_refl true).
  - refine (Forall_cons (1197111370304789,1,2) pr51_70304789 (Forall_nil _)).
Qed.
Lemma pr211_14524423 : prime 2307908307480288228542246803936276549862379769663891118114524423.
Proof.
  apply (pock_check_sound _ [(17,1,2); (24841,1,2); (14365336443657469,1,2)] 3174497337334807799763).
  - vm_cast_no_check (eq_refl true).
  - refine (Forall_cons (17,1,2) pr_17 (Forall_cons (24841,1,2) pr_24841 (Forall_cons (14365336443657469,1,2) pr54_43657469 (Forall_nil _)))).
Qed.
Lemma prime_brainpool_r1_base_field_320 : prime 1763593322239166354161909842446019520889512772719515192772960415288640868802149818095501499903527.
Proof.
  apply (pock_check_sound _ [(2307908307480288228542246803936276549862379769663891118114524423,1,2)] 0).
  - vm_cast_no_check (eq_refl true).
  - refine (Forall_cons (2307908307480288228542246803936276549862379769663891118114524423,1,2) pr211_14524423 (Forall_nil _)).
Qed.
(** fields/brainpool_r1/base_field.hpp:188 *)
Lemma pr_79 : prime 79.
Proof. apply small_prime_sound. vm_cast_no_check (eq_refl true). Qed.
Lemma pr_734647 : prime 734647.
Proof. apply small_prime_sound. vm_cast_no_check (eq_refl true). Qed.
Lemma pr_157427 : prime 157427.
Proof. apply small_prime_sound. vm_cast_no_check (eq_refl true). Qed.
Lemma pr45_5140967 : prime 27093605140967.
Proof.
  apply (pock_check_sound _ [(157427,1,2)] 34946).
  - vm_cast_no_check (eq_refl true).
  - refine (Forall_cons (157427,1,2) pr_157427 (Forall_nil _)).
Qed.
Lemma pr_37967 : prime 37967.
Proof. apply small_prime_sound. vm_cast_no_check (eq_refl true). Qed.
Lemma pr36_16512273 : prime 59016512273.
Proof.
  apply (pock_check_sound _ [(37967,1,2)] 35735).
  - vm_cast_no_check (eq_refl true).
  - refine (Forall_cons (37967,1,2) pr_37967 (Forall_nil _)).
Qed.
Lemma pr62_27260651 : prime 3012146720727260651.
Proof.
  apply (pock_check_sound _ [(59016512273,1,2)] 0).
  - vm_cast_no_check (eq_refl true).
  - refine (Forall_cons (59016512273,1,2) pr36_16512273 (Forall_nil _)).
Qed.
Lemma prime_brainpool_r1_base_field_384 : prime 21659270770119316173069236842332604979796116387017648600081618503821089934025961822236561982844534088440708417973331.
Proof.
  apply (pock_check_sound _ [(79,1,2); (734647,1,2); (27093605140967,1,2); (3012146720727260651,1,2)] 1134173304404364760709558991653935425056).
  - vm_cast_no_check (eq_refl true).
  - refine (Forall_cons (79,1,2) pr_79 (Forall_cons (734647,1,2) pr_734647 (Forall_cons (27093605140967,1,2) pr45_5140967 (Forall_cons (3012146720727260651,1,2) pr62_27260651 (Forall_nil _))))).
Qed.
(** fields/brainpool_r1/base_field.hpp:214 *)
Lemma pr_277 : prime 277.
Proof. apply small_prime_sound. vm_cast_no_check (eq_refl true). Qed.
Lemma pr_5717 : prime 5717.
Proof. apply small_prime_sound. vm_cast_no_check (eq_refl true). Qed.
Lemma pr_24379 : prime 24379.
Proof. apply small_prime_sound. vm_cast_no_check (eq_refl true). Qed.
Lemma pr_149 : prime 149.
Proof. apply small_prime_sound. vm_cast_no_check (eq_refl true). Qed.
Lemma pr_1064159 : prime 1064159.
Proof.
  apply (pock_check_sound _ [(149,1,2)] 138).
  - vm_cast_no_check (eq_refl true).
  - refine (Forall_cons (149,1,2) pr_149 (Forall_nil _)).
Qed.
Lemma pr_2128319 : prime 2128319.
Proof.
  apply (pock_check_sound _ [(1064159,1,2)] 0).
  - vm_cast_no_check (eq_refl true).
  - refine (Forall_cons (1064159,1,2) pr_1064159 (Forall_nil _)).
Qed.
Lemma pr_4256639 : prime 4256639.
Proof.
  apply (pock_check_sound _ [(2128319,1,2)] 0).
  - vm_cast_no_check (eq_refl true).
  - refine (Forall_cons (2128319,1,2) pr_2128319 (Forall_nil _)).
Qed.
Lemma pr166_41391551 : prime 57034811399347976721726973543287819857845741391551.
Proof.
  apply (pock_check_sound _ [(277,1,2); (5717,1,2); (24379,1,2); (4256639,1,2)] 1333056253059780).
  - vm_cast_no_check (eq_refl true).
  - refine (Forall_cons (277,1,2) pr_277 (Forall_cons (5717,1,2) pr_5717 (Forall_cons (24379,1,2) pr_24379 (Forall_cons (4256639,1,2) pr_4256639 (Forall_nil _))))).
Qed.
Lemma pr218_51910423 : prime 297968944203544716575901889872036237935261750341463572996351910423.
Proof.
  apply (pock_check_sound _ [(57034811399347976721726973543287819857845741391551,1,2)] 0).
  - vm_cast_no_check (eq_refl true).
  - refine (Forall_cons (57034811399347976721726973543287819857845741391551,1,2) pr166_41391551 (Forall_nil _)).
Qed.
Lemma pr283_55607979 : prime 14435454750020088047685444818571282397270727096595623715684950293729763357371155607979.
Proof.
  apply (pock_check_sound _ [(297968944203544716575901889872036237935261750341463572996351910423,1,2)] 0).
  - vm_cast_no_check (eq_refl true).
  - refine (Forall_cons (297968944203544716575901889872036237935261750341463572996351910423,1,2) pr218_51910423 (Forall_nil _)).
Qed.
Lemma prime_brainpool_r1_base_field_512 : prime 8948962207650232551656602815159153422162609644098354511344597187200057010413552439917934304191956942765446530386427345937963894309923928536070534607816947.
Proof.
  apply (pock_check_sound _ [(14435454750020088047685444818571282397270727096595623715684950293729763357371155607979,1,2)] 0).
  - vm_cast_no_check (eq_refl true).
  - refine (Forall_cons (14435454750020088047685444818571282397270727096595623715684950293729763357371155607979,1,2) pr283_55607979 (Forall_nil _)).
Qed.
(** fields/brainpool_r1/scalar_field.hpp:59 *)
Lemma pr_83 : prime 83.
Proof. apply small_prime_sound. vm_cast_no_check (eq_refl true). Qed.
Lemma pr_1933 : prime 1933.
Proof. apply small_prime_sound. vm_cast_no_check (eq_refl true). Qed.
Lemma pr_216841 : prime 216841.
Proof. apply small_prime_sound. vm_cast_no_check (eq_refl true). Qed.
Lemma pr_2 : prime 2.
Proof. apply small_prime_sound. vm_cast_no_check (eq_refl true). Qed.
Lemma pr_3 : prime 3.
Proof. apply small_prime_sound. vm_cast_no_check (eq_refl true). Qed.
Lemma pr_3244753 : prime 3244753.
Proof.
  apply (pock_check_sound _ [(2,4,5); (3,3,2)] 166).
  - vm_cast_no_check (eq_refl true).
  - refine (Forall_cons (2,4,5) pr_2 (Forall_cons (3,3,2) pr_3 (Forall_nil _))).
Qed.
Lemma prime_brainpool_r1_scalar_field_160 : prime 1332297598440044874827085038830181364212942568457.
Proof.
  apply (pock_check_sound _ [(83,1,2); (1933,1,2); (216841,1,2); (3244753,1,2)] 17736906488549651).
  - vm_cast_no_check (eq_refl true).
  - refine (Forall_cons (83,1,2) pr_83 (Forall_cons (1933,1,2) pr_1933 (Forall_cons (216841,1,2) pr_216841 (Forall_cons (3244753,1,2) pr_3244753 (Forall_nil _))))).
Qed.
(** fields/brainpool_r1/scalar_field.hpp:82 *)
Lemma pr_4093 : prime 4093.
Proof. apply small_prime_sound. vm_cast_no_check (eq_refl true). Qed.
Lemma pr32_51945627 : prime 3151945627.
Proof.
  apply (pock_check_sound _ [(4093,1,2)] 597).
  - vm_cast_no_check (eq_refl true).
  - refine (Forall_cons (4093,1,2) pr_4093 (Forall_nil _)).
Qed.
Lemma pr54_56428619 : prime 15507364456428619.
Proof.
  apply (pock_check_sound _ [(3151945627,1,2)] 0).
  - vm_cast_no_check (eq_refl true).
  - refine (Forall_cons (3151945627,1,2) pr32_51945627 (Forall_nil _)).
Qed.
Lemma pr84_97893651 : prime 13609004849343556497893651.
Proof.
  apply (pock_check_sound _ [(15507364456428619,1,2)] 0).
  - vm_cast_no_check (eq_refl true).
  - refine (Forall_cons (15507364456428619,1,2) pr54_56428619 (Forall_nil _)).
Qed.
Lemma prime_brainpool_r1_scalar_field_192 : prime 4781668983906166242955001894269038308119863659119834868929.
Proof.
  apply (pock_check_sound _ [(13609004849343556497893651,1,2)] 2035502145581331079498279).
  - vm_cast_no_check (eq_refl true).
  - refine (Forall_cons (13609004849343556497893651,1,2) pr84_97893651 (Forall_nil _)).
Qed.
(** fields/brainpool_r1/scalar_field.hpp:106 *)
Lemma pr_324661 : prime 324661.
Proof. apply small_prime_sound. vm_cast_no_check (eq_refl true). Qed.
Lemma pr47_50867459 : prime 73831150867459.
Proof.
  apply (pock_check_sound _ [(324661,1,2)] 147277).
  - vm_cast_no_check (eq_refl true).
  - refine (Forall_cons (324661,1,2) pr_324661 (Forall_nil _)).
Qed.
Lemma pr90_86591867 : prime 806539990497420485986591867.
Proof.
  apply (pock_check_sound _ [(73831150867459,1,2)] 0).
  - vm_cast_no_check (eq_refl true).
  - refine (Forall_cons (73831150867459,1,2) pr47_50867459 (Forall_nil _)).
Qed.
Lemma pr93_65918671 : prime 8065399904974204859865918671.
Proof.
  apply (pock_check_sound _ [(806539990497420485986591867,1,2)] 0).
  - vm_cast_no_check (eq_refl true).
  - refine (Forall_cons (806539990497420485986591867,1,2) pr90_86591867 (Forall_nil _)).
Qed.
Lemma pr100_42077863 : prime 983978788406852992903642077863.
Proof.
  apply (pock_check_sound _ [(8065399904974204859865918671,1,2)] 0).
  - vm_cast_no_check (eq_refl true).
  - refine (Forall_cons (8065399904974204859865918671,1,2) pr93_65918671 (Forall_nil _)).
Qed.
Lemma pr130_14153077 : prime 1161088527226980043552900118830014153077.
Proof.
  apply (pock_check_sound _ [(983978788406852992903642077863,1,2)] 0).
  - vm_cast_no_check (eq_refl true).
  - refine (Forall_cons (983978788406852992903642077863,1,2) pr100_42077863 (Forall_nil _)).
Qed.
Lemma pr161_80347771 : prime 1990826783253337021526517590177438885463180347771.
Proof.
  apply (pock_check_sound _ [(1161088527226980043552900118830014153077,1,2)] 0).
  - vm_cast_no_check (eq_refl true).
  - refine (Forall_cons (1161088527226980043552900118830014153077,1,2) pr130_14153077 (Forall_nil _)).
Qed.
Lemma pr214_38498041 : prime 21889810146873172242343485545193568027521720946368744885738498041.
Proof.
  apply (pock_check_sound _ [(1990826783253337021526517590177438885463180347771,1,2)] 0).
  - vm_cast_no_check (eq_refl true).
  - refine (Forall_cons (1990826783253337021526517590177438885463180347771,1,2) pr161_80347771 (Forall_nil _)).
Qed.
Lemma prime_brainpool_r1_scalar_field_224 : prime 22721622932454352787552537995910923612567546342330757191396560966559.
Proof.
  apply (pock_check_sound _ [(21889810146873172242343485545193568027521720946368744885738498041,1,2)] 0).
  - vm_cast_no_check (eq_refl true).
  - refine (Forall_cons (21889810146873172242343485545193568027521720946368744885738498041,1,2) pr214_38498041 (Forall_nil _)).
Qed.
(** fields/brainpool_r1/scalar_field.hpp:130 *)
Lemma pr_1543 : prime 1543.
Proof. apply small_prime_sound. vm_cast_no_check (eq_refl true). Qed.
Lemma pr30_57986407 : prime 757986407.
Proof.
  apply (pock_check_sound _ [(1543,1,2)] 566).
  - vm_cast_no_check (eq_refl true).
  - refine (Forall_cons (1543,1,2) pr_1543 (Forall_nil _)).
Qed.
Lemma pr56_28664091 : prime 57660685428664091.
Proof.
  apply (pock_check_sound _ [(757986407,1,2)] 0).
  - vm_cast_no_check (eq_refl true).
  - refine (Forall_cons (757986407,1,2) pr30_57986407 (Forall_nil _)).
Qed.
Lemma pr157_91020381 : prime 114430077720284863765762092766225391679591020381.
Proof.
  apply (pock_check_sound _ [(57660685428664091,1,2)] 53798239314369526).
  - vm_cast_no_check (eq_refl true).
  - refine (Forall_cons (57660685428664091,1,2) pr56_28664091 (Forall_nil _)).
Qed.
Lemma pr252_74242171 : prime 4271386466502519123378319257166758282929862876911918307708639947947974242171.
Proof.
  apply (pock_check_sound _ [(114430077720284863765762092766225391679591020381,1,2)] 0).
  - vm_cast_no_check (eq_refl true).
  - refine (Forall_cons (114430077720284863765762092766225391679591020381,1,2) pr157_91020381 (Forall_nil _)).
Qed.
Lemma prime_brainpool_r1_scalar_field_256 : prime 76884956397045344220809746629001649092737531784414529538755519063063536359079.
Proof.
  apply (pock_check_sound _ [(4271386466502519123378319257166758282929862876911918307708639947947974242171,1,2)] 0).
  - vm_cast_no_check (eq_refl true).
  - refine (Forall_cons (4271386466502519123378319257166758282929862876911918307708639947947974242171,1,2) pr252_74242171 (Forall_nil _)).
Qed.
(** fields/brainpool_r1/scalar_field.hpp:154 *)
Lemma pr_2777 : prime 2777.
Proof. apply small_prime_sound. vm_cast_no_check (eq_refl true). Qed.
Lemma pr_1055261 : prime 1055261.
Proof.
  apply (pock_check_sound _ [(2777,1,2)] 0).
  - vm_cast_no_check (eq_refl true).
  - refine (Forall_cons (2777,1,2) pr_2777 (Forall_nil _)).
Qed.
Lemma pr_2110523 : prime 2110523.
Proof.
  apply (pock_check_sound _ [(1055261,1,2)] 0).
  - vm_cast_no_check (eq_refl true).
  - refine (Forall_cons (1055261,1,2) pr_1055261 (Forall_nil _)).
Qed.
Lemma pr55_39944203 : prime 23713516839944203.
Proof.
  apply (pock_check_sound _ [(2110523,1,2)] 1534644).
  - vm_cast_no_check (eq_refl true).
  - refine (Forall_cons (2110523,1,2) pr_2110523 (Forall_nil _)).
Qed.
Lemma pr156_57513609 : prime 56834084706324953499635029374333218339957513609.
Proof.
  apply (pock_check_sound _ [(23713516839944203,1,2)] 19319738374546676).
  - vm_cast_no_check (eq_refl true).
  - refine (Forall_cons (23713516839944203,1,2) pr55_39944203 (Forall_nil _)).
Qed.
Lemma pr244_94551877 : prime 23341373081361435103090946041083073851794115571864009670215941767494551877.
Proof.
  apply (pock_check_sound _ [(56834084706324953499635029374333218339957513609,1,2)] 0).
  - vm_cast_no_check (eq_refl true).
  - refine (Forall_cons (56834084706324953499635029374333218339957513609,1,2) pr156_57513609 (Forall_nil _)).
Qed.
Lemma pr278_38458623 : prime 299589410500344960818634453344053290288849906371853185689121682914766027672438458623.
Proof.
  apply (pock_check_sound _ [(23341373081361435103090946041083073851794115571864009670215941767494551877,1,2)] 0).
  - vm_cast_no_check (eq_refl true).
  - refine (Forall_cons (23341373081361435103090946041083073851794115571864009670215941767494551877,1,2) pr244_94551877 (Forall_nil _)).
Qed.
Lemma prime_brainpool_r1_scalar_field_320 : prime 1763593322239166354161909842446019520889512772717686063760686124016784784845843468355685258203921.
Proof.
  apply (pock_check_sound _ [(299589410500344960818634453344053290288849906371853185689121682914766027672438458623,1,2)] 0).
  - vm_cast_no_check (eq_refl true).
  - refine (Forall_cons (299589410500344960818634453344053290288849906371853185689121682914766027672438458623,1,2) pr278_38458623 (Forall_nil _)).
Qed.
(** fields/brainpool_r1/scalar_field.hpp:178 *)
Lemma pr_1093 : prime 1093.
Proof. apply small_prime_sound. vm_cast_no_check (eq_refl true). Qed.
Lemma pr_28817 : prime 28817.
Proof. apply small_prime_sound. vm_cast_no_check (eq_refl true). Qed.
Lemma pr_5071793 : prime 5071793.
Proof.
  apply (pock_check_sound _ [(28817,1,2)] 0).
  - vm_cast_no_check (eq_refl true).
  - refine (Forall_cons (28817,1,2) pr_28817 (Forall_nil _)).
Qed.
Lemma pr_53 : prime 53.
Proof. apply small_prime_sound. vm_cast_no_check (eq_refl true). Qed.
Lemma pr_11594917 : prime 11594917.
Proof.
  apply (pock_check_sound _ [(3,2,5); (53,1,2)] 457).
  - vm_cast_no_check (eq_refl true).
  - refine (Forall_cons (3,2,5) pr_3 (Forall_cons (53,1,2) pr_53 (Forall_nil _))).
Qed.
Lemma pr151_8598899 : prime 2788900573532341797131599550190476443808598899.
Proof.
  apply (pock_check_sound _ [(1093,1,2); (5071793,1,2); (11594917,1,2)] 39715495457520595).
  - vm_cast_no_check (eq_refl true).
  - refine (Forall_cons (1093,1,2) pr_1093 (Forall_cons (5071793,1,2) pr_5071793 (Forall_cons (11594917,1,2) pr_11594917 (Forall_nil _)))).
Qed.
Lemma pr179_92370543 : prime 669909697361913545660898382546007419518544524592370543.
Proof.
  apply (pock_check_sound _ [(2788900573532341797131599550190476443808598899,1,2)] 0).
  - vm_cast_no_check (eq_refl true).
  - refine (Forall_cons (2788900573532341797131599550190476443808598899,1,2) pr151_8598899 (Forall_nil _)).
Qed.
Lemma pr206_4193773 : prime 90050068090664042551646936303486902724615855323314057604193773.
Proof.
  apply (pock_check_sound _ [(669909697361913545660898382546007419518544524592370543,1,2)] 0).
  - vm_cast_no_check (eq_refl true).
  - refine (Forall_cons (669909697361913545660898382546007419518544524592370543,1,2) pr179_92370543 (Forall_nil _)).
Qed.
Lemma prime_brainpool_r1_scalar_field_384 : prime 21659270770119316173069236842332604979796116387017648600075645274821611501358515537962695117368903252229601718723941.
Proof.
  apply (pock_check_sound _ [(90050068090664042551646936303486902724615855323314057604193773,1,2)] 0).
  - vm_cast_no_check (eq_refl true).
  - refine (Forall_cons (90050068090664042551646936303486902724615855323314057604193773,1,2) pr206_4193773 (Forall_nil _)).
Qed.
(** fields/brainpool_r1/scalar_field.hpp:202 *)
Lemma pr_2729 : prime 2729.
Proof. apply small_prime_sound. vm_cast_no_check (eq_refl true). Qed.
Lemma pr29_90442013 : prime 290442013.
Proof.
  apply (pock_check_sound _ [(2729,1,2)] 2725).
  - vm_cast_no_check (eq_refl true).
  - refine (Forall_cons (2729,1,2) pr_2729 (Forall_nil _)).
Qed.
Lemma pr81_10010337 : prime 2269518422590621710010337.
Proof.
  apply (pock_check_sound _ [(290442013,1,2)] 285217509).
  - vm_cast_no_check (eq_refl true).
  - refine (Forall_cons (290442013,1,2) pr29_90442013 (Forall_nil _)).
Qed.
Lemma pr222_45631273 : prime 4982806528470961888578867896009647265488138691022009860168845631273.
Proof.
  apply (pock_check_sound _ [(2269518422590621710010337,1,2)] 332757783666154036913600).
  - vm_cast_no_check (eq_refl true).
  - refine (Forall_cons (2269518422590621710010337,1,2) pr81_10010337 (Forall_nil _)).
Qed.
Lemma pr314_18961279 : prime 23337925407708917343269873493319607638879341485914224746228038546474382183428298476287118961279.
Proof.
  apply (pock_check_sound _ [(4982806528470961888578867896009647265488138691022009860168845631273,1,2)] 0).
  - vm_cast_no_check (eq_refl true).
  - refine (Forall_cons (4982806528470961888578867896009647265488138691022009860168845631273,1,2) pr222_45631273 (Forall_nil _)).
Qed.
Lemma prime_brainpool_r1_scalar_field_512 : prime 8948962207650232551656602815159153422162609644098354511344597187200057010413418528378981730643524959857451398370029280583094215613882043973354392115544169.
Proof.
  apply (pock_check_sound _ [(23337925407708917343269873493319607638879341485914224746228038546474382183428298476287118961279,1,2)] 0).
  - vm_cast_no_check (eq_refl true).
  - refine (Forall_cons (23337925407708917343269873493319607638879341485914224746228038546474382183428298476287118961279,1,2) pr314_18961279 (Forall_nil _)).
Qed.
