(** Domain parameters of the curve headers that define no group type of their own or
    name group types missing from the repository (generated by tools/domain_params.py).
    swc_p and swc_r are the moduli of the fields the header names as p and q. *)
From Coq Require Import ZArith List.
From Verif Require Import Model.FieldParams Model.CurveParams.
Import ListNotations.
Local Open Scope Z_scope.

(* curves/brainpool_r1.hpp:46-69 *)
Definition brainpool_r1_160 : sw_curve := mkSW brainpool_r1_base_field_160_modulus
  0x340E7BE2A280EB74E2BE61BADA745D97E8F7C300
  0x1E589A8595423412134FAA2DBDEC95C8D8675E58
  [0xBED5AF16EA3F6A4F62938C4631EB5AF7BDBCDBC3;
   0x1667CB477A1A8EC338F94741669C976316DA6321] brainpool_r1_scalar_field_160_modulus.
(* curves/brainpool_r1.hpp:72-99 *)
Definition brainpool_r1_192 : sw_curve := mkSW brainpool_r1_base_field_192_modulus
  0x6A91174076B1E0E19C39C031FE8685C1CAE040E5C69A28EF
  0x469A28EF7C28CCA3DC721D044F4496BCCA7EF4146FBF25C9
  [0xC0A0647EAAB6A48753B033C56CB0F0900A2F5C4853375FD6;
   0x14B690866ABD5BB88B5F4828C1490002E6773FA2FA299B8F] brainpool_r1_scalar_field_192_modulus.
(* curves/brainpool_r1.hpp:102-129 *)
Definition brainpool_r1_224 : sw_curve := mkSW brainpool_r1_base_field_224_modulus
  0x68A5E62CA9CE6C1C299803A6C1530B514E182AD8B0042A59CAD29F43
  0x2580F63CCFE44138870713B1A92369E33E2135D266DBB372386C400B
  [0xD9029AD2C7E5CF4340823B2A87DC68C9E4CE3174C1E6EFDEE12C07D;
   0x58AA56F772C0726F24C6B89E4ECDAC24354B9E99CAA3F6D3761402CD] brainpool_r1_scalar_field_224_modulus.
(* curves/brainpool_r1.hpp:132-159 *)
Definition brainpool_r1_256 : sw_curve := mkSW brainpool_r1_base_field_256_modulus
  0x7D5A0975FC2C3057EEF67530417AFFE7FB8055C126DC5C6CE94A4B44F330B5D9
  0x26DC5C6CE94A4B44F330B5D9BBD77CBF958416295CF7E1CE6BCCDC18FF8C07B6
  [0x8BD2AEB9CB7E57CB2C4B482FFC81B7AFB9DE27E1E3BD23C23A4453BD9ACE3262;
   0x547EF835C3DAC4FD97F8461A14611DC9C27745132DED8E545C1D54C72F046997] brainpool_r1_scalar_field_256_modulus.
(* curves/brainpool_r1.hpp:162-188 *)
Definition brainpool_r1_320 : sw_curve := mkSW brainpool_r1_base_field_320_modulus
  0x3EE30B568FBAB0F883CCEBD46D3F3BB8A2A73513F5EB79DA66190EB085FFA9F492F375A97D860EB4
  0x520883949DFDBC42D3AD198640688A6FE13F41349554B49ACC31DCCD884539816F5EB4AC8FB1F1A6
  [0x43BD7E9AFB53D8B85289BCC48EE5BFE6F20137D10A087EB6E7871E2A10A599C710AF8D0D39E20611;
   0x14FDD05545EC1CC8AB4093247F77275E0743FFED117182EAA9C77877AAAC6AC7D35245D1692E8EE1] brainpool_r1_scalar_field_320_modulus.
(* curves/brainpool_r1.hpp:191-217 *)
Definition brainpool_r1_384 : sw_curve := mkSW brainpool_r1_base_field_384_modulus
  0x7BC382C63D8C150C3C72080ACE05AFA0C2BEA28E4FB22787139165EFBA91F90F8AA5814A503AD4EB04A8C7DD22CE2826
  0x4A8C7DD22CE28268B39B55416F0447C2FB77DE107DCD2A62E880EA53EEB62D57CB4390295DBC9943AB78696FA504C11
  [0x1D1C64F068CF45FFA2A63A81B7C13F6B8847A3E77EF14FE3DB7FCAFE0CBD10E8E826E03436D646AAEF87B2E247D4AF1E;
   0x8ABE1D7520F9C2A45CB1EB8E95CFD55262B70B29FEEC5864E19C054FF99129280E4646217791811142820341263C5315] brainpool_r1_scalar_field_384_modulus.
(* curves/brainpool_r1.hpp:220-246 *)
Definition brainpool_r1_512 : sw_curve := mkSW brainpool_r1_base_field_512_modulus
  0x7830A3318B603B89E2327145AC234CC594CBDD8D3DF91610A83441CAEA9863BC2DED5D5AA8253AA10A2EF1C98B9AC8B57F1117A72BF2C7B9E7C1AC4D77FC94CA
  0x3DF91610A83441CAEA9863BC2DED5D5AA8253AA10A2EF1C98B9AC8B57F1117A72BF2C7B9E7C1AC4D77FC94CADC083E67984050B75EBAE5DD2809BD638016F723
  [0x81AEE4BDD82ED9645A21322E9C4C6A9385ED9F70B5D916C1B43B62EEF4D0098EFF3B1F78E2D0D48D50D1687B93B97D5F7C6D5047406A5E688B352209BCB9F822;
   0x7DDE385D566332ECC0EABFA9CF7822FDF209F70024A57B1AA000C55B881F8111B2DCDE494A5F485E5BCA4BD88A2763AED1CA2B2FA8F0540678CD1E0F3AD80892] brainpool_r1_scalar_field_512_modulus.
(* curves/frp_v1.hpp:43-64 *)
Definition frp_v1_256 : sw_curve := mkSW frp_v1_base_fields_256_modulus
  0xF1FD178C0B3AD58F10126DE8CE42435B3961ADBCABC8CA6DE8FCF353D86E9C00
  0xEE353FCA5428A9300D4ABA754A44C00FDFEC0C9AE4B1A1803075ED967B7BB73F
  [0xB6B3D4C356C139EB31183D4749D423958C27D2DCAF98B70164C97A2DD98F5CFF;
   0x6142E0F7C8B204911F9271F0F3ECEF8C2701C307E8E4C9E183115A1554062CFB] frp_v1_scalar_field_256_modulus.
(* curves/gost_A.hpp:43-67 *)
Definition gost_A_256 : sw_curve := mkSW gost_A_base_field_256_modulus
  0xFFFFFFFFFFFFFFFFFFFFFFFFFFFFFFFFFFFFFFFFFFFFFFFFFFFFFFFFFFFFFD94
  0xA6
  [0x1;
   0x8D91E471E0989CDA27DF505A453F2B7635294F2DDF23E3B122ACC99C9E9F1E14] gost_A_scalar_field_256_modulus.
(* curves/sm2p_v1.hpp:43-64 *)
Definition sm2p_v1_256 : sw_curve := mkSW sm2p_v1_base_field_256_modulus
  0xFFFFFFFEFFFFFFFFFFFFFFFFFFFFFFFFFFFFFFFF00000000FFFFFFFFFFFFFFFC
  0x28E9FA9E9D9F5E344D5A9E4BCF6509A7F39789F515AB8F92DDBCBD414D940E93
  [0x32C4AE2C1F1981195F9904466A39C9948FE30BBFF2660BE1715A4589334C74C7;
   0xBC3736A2F4F6779C59BDCEE36B692153D0A9877CC62A474002DF32E52139F0A0] sm2p_v1_scalar_field_256_modulus.
(* curves/x962_p.hpp:52-73 *)
Definition x962_p_v2_192 : sw_curve := mkSW x962_p_v2_base_field_192_modulus
  0xFFFFFFFFFFFFFFFFFFFFFFFFFFFFFFFEFFFFFFFFFFFFFFFC
  0xCC22D6DFB95C6B25E49C0D6364A4E5980C393AA21668D953
  [0xEEA2BAE7E1497842F2DE7769CFE9C989C072AD696F48034A;
   0x6574D11D69B6EC7A672BB82A083DF2F2B0847DE970B2DE15] x962_p_v2_scalar_field_192_modulus.
(* curves/x962_p.hpp:76-97 *)
Definition x962_p_v3_192 : sw_curve := mkSW x962_p_v2_base_field_192_modulus
  0xFFFFFFFFFFFFFFFFFFFFFFFFFFFFFFFEFFFFFFFFFFFFFFFC
  0x22123DC2395A05CAA7423DAECCC94760A7D462256BD56916
  [0x7D29778100C65A1DA1783716588DCE2B8B4AEE8E228F1896;
   0x38A90F22637337334B49DCB66A6DC8F9978ACA7648A943B0] x962_p_v2_scalar_field_192_modulus.
(* curves/x962_p.hpp:100-121 *)
Definition x962_p_v1_239 : sw_curve := mkSW x962_p_v1_base_field_239_modulus
  0x7FFFFFFFFFFFFFFFFFFFFFFF7FFFFFFFFFFF8000000000007FFFFFFFFFFC
  0x6B016C3BDCF18941D0D654921475CA71A9DB2FB27D1D37796185C2942C0A
  [0xFFA963CDCA8816CCC33B8642BEDF905C3D358573D3F27FBBD3B3CB9AAAF;
   0x7DEBE8E4E90A5DAE6E4054CA530BA04654B36818CE226B39FCCB7B02F1AE] x962_p_v1_scalar_field_239_modulus.
(* curves/x962_p.hpp:124-145 *)
Definition x962_p_v2_239 : sw_curve := mkSW x962_p_v2_base_field_239_modulus
  0x7FFFFFFFFFFFFFFFFFFFFFFF7FFFFFFFFFFF8000000000007FFFFFFFFFFC
  0x617FAB6832576CBBFED50D99F0249C3FEE58B94BA0038C7AE84C8C832F2C
  [0x38AF09D98727705120C921BB5E9E26296A3CDCF2F35757A0EAFD87B830E7;
   0x5B0125E4DBEA0EC7206DA0FC01D9B081329FB555DE6EF460237DFF8BE4BA] x962_p_v2_scalar_field_239_modulus.
(* curves/x962_p.hpp:148-169 *)
Definition x962_p_v3_239 : sw_curve := mkSW x962_p_v3_base_field_239_modulus
  0x7FFFFFFFFFFFFFFFFFFFFFFF7FFFFFFFFFFF8000000000007FFFFFFFFFFC
  0x255705FA2A306654B1F4CB03D6A750A30C250102D4988717D9BA15AB6D3E
  [0x6768AE8E18BB92CFCF005C949AA2C6D94853D0E660BBF854B1C9505FE95A;
   0x1607E6898F390C06BC1D552BAD226F3B6FCFE48B6E818499AF18E3ED6CF3] x962_p_v3_scalar_field_239_modulus.

(** curves/brainpool_r1.hpp .. curves/x962_p.hpp: the values above, each with its lines *)
Definition domain_curves : list sw_curve := [brainpool_r1_160; brainpool_r1_192; brainpool_r1_224; brainpool_r1_256; brainpool_r1_320; brainpool_r1_384; brainpool_r1_512; frp_v1_256; gost_A_256; sm2p_v1_256; x962_p_v2_192; x962_p_v3_192; x962_p_v1_239; x962_p_v2_239; x962_p_v3_239].

(* curves/p192.hpp:48 *)
Definition p192_p : Z := 0xFFFFFFFFFFFFFFFFFFFFFFFFFFFFFFFEFFFFFFFFFFFFFFFF.
(* curves/p224.hpp:46 *)
Definition p224_p : Z := 0xFFFFFFFFFFFFFFFFFFFFFFFFFFFFFFFF000000000000000000000001.
(* curves/p384.hpp:47 *)
Definition p384_p : Z := 0xFFFFFFFFFFFFFFFFFFFFFFFFFFFFFFFFFFFFFFFFFFFFFFFFFFFFFFFFFFFFFFFEFFFFFFFF0000000000000000FFFFFFFF.
(* curves/p521.hpp:47 *)
Definition p521_p : Z := 0x1FFFFFFFFFFFFFFFFFFFFFFFFFFFFFFFFFFFFFFFFFFFFFFFFFFFFFFFFFFFFFFFFFFFFFFFFFFFFFFFFFFFFFFFFFFFFFFFFFFFFFFFFFFFFFFFFFFFFFFFFFFFFFFFFFF.
