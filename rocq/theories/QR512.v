(** The suite with the constants used by the code is well formed. *)
From Coq Require Import ZArith Znumtheory Lia List.
From Verif Require Import ZMod Bytes Suite.
Open Scope Z_scope.

(** The constants of QR512 (dedis/crypto nist, external; P also appears in
    /repo/primitive/lrs/LinkableRingSignature.go:23). *)
Definition qr512_P : Z := 10198267722357351868598076141027380280417188309231803909918464305012113541414604537422741096561285049775792035177041672305646773132014126091142862443826263.
Definition qr512_Q : Z := 5099133861178675934299038070513690140208594154615901954959232152506056770707302268711370548280642524887896017588520836152823386566007063045571431221913131.
Definition qr512_G : Z := 4.

(** The suite with the real constants is well formed as well, for every hash
    and every cipher whose picks are in range. *)
Definition qr512_suite (h : bytes -> bytes) (pk : bytes -> bytes -> Z) (nc : bytes -> Z) : suite :=
  Suite qr512_P qr512_Q qr512_G h pk nc.

(** ** 4^Q = 1 modulo P

    P = 2Q + 1, so 4^Q = 2^(P-1).  The power is computed by square and
    multiply-by-two; each step is given the quotient of its division by P, so
    that checking it needs multiplications only. *)
Fixpoint pow2_chain (m : Z) (steps : list (bool * Z)) (e a : Z) : option (Z * Z) :=
  match steps with
  | nil => Some (e, a)
  | (b, q) :: rest =>
      let sq := Z.square a in
      let t := if b then Z.double sq else sq in
      let r := t - m * q in
      if ((0 <=? r) && (r <? m))%bool then
        pow2_chain m rest (if b then Z.succ_double e else Z.double e) r
      else None
  end.

Lemma pow2_chain_spec m : 1 < m -> forall steps e a e' a',
  0 <= e -> a mod m = 2 ^ e mod m -> pow2_chain m steps e a = Some (e', a') ->
  0 <= e' /\ a' mod m = 2 ^ e' mod m.
Proof.
  intros Hm. induction steps as [|[b q] rest IH]; intros e a e' a' He Ha H; cbn [pow2_chain] in H.
  - injection H as <- <-. auto.
  - set (t := if b then Z.double (Z.square a) else Z.square a) in H.
    destruct ((0 <=? t - m * q) && (t - m * q <? m))%bool eqn:E; [|discriminate].
    refine (IH _ _ _ _ _ _ H).
    + destruct b; [rewrite Z.succ_double_spec|rewrite Z.double_spec]; lia.
    + replace (t - m * q) with (t + (- q) * m) by ring. rewrite Z.mod_add by lia.
      assert (Hsq : Z.square a mod m = 2 ^ (2 * e) mod m).
      { rewrite Z.square_spec, Z.mul_mod, Ha, <- Z.mul_mod by lia.
        replace (2 * e) with (e + e) by ring. rewrite Z.pow_add_r by lia. reflexivity. }
      destruct b; subst t; cbv iota.
      * rewrite Z.double_spec, Z.succ_double_spec, Z.mul_mod, Hsq, <- Z.mul_mod by lia.
        rewrite Z.pow_add_r, Z.pow_1_r by lia. f_equal. ring.
      * rewrite Z.double_spec. exact Hsq.
Qed.

Definition qr512_steps : list (bool * Z) := (
  (false, 0x5424473fff3f698d884d18aeb230d09c0d4f008f3556b24bd4a6a241421fa3f48cf) ::
  (true, 0x1222f18c54ea40d0d10b474f8875729334a18020e81d42fc589099d50ff19345a59ea99af04680c68e34dcf16adb3f64546492918d1ae34f1ab4a75d700ccc823) ::
  (true, 0x787092aed29d011b3346afe400ed8a9a7c973cd4f6a6043e422bd778396ebaba659ccb647ee71a247313df1bc43eff7a9daeaa354b8f2daa7dc5ad4c0650e4a9) ::
  (true, 0xf388a979f34569dbac9d0a6bd3c7b91e9c90fc9968151769481c3954017fc54c729810979d6f26bb684aed2278591da2130398fd02ccd4f32fc2091f013f8bf4) ::
  (false, 0x153d0523937a8a072ca949b735a845f6b980a2df23f96df56ea5f9b3b8dba9e9bb400e2c50c2b6c7abb048f47e50062ff2dca7664906477d48a35a366500812) ::
  (false, 0xe892a012e095edd0034e163580a858291b3935c1db308fe86462dda1b1af1d8b6e760ef24235963ec3c365faaffdc83472c7c1d5d242031bdf6e22665517ba) ::
  (false, 0x12f0751f09229bebccdef1779f20bea343a0db999fb93a291da6dcfbe9f1edb38c9d7a42860f74da347894b60edbc84289cd4f6a06f4180bbc7b393e2863acd1) ::
  (false, 0x18011c4f4063b7ec9720c4c1d560384ca7ae1bb5d643f69f74317208d64379cdff9e0401c35ed76d5899bcefbe68111f7718c2b7a93e6e690866d5de13df8e40) ::
  (false, 0x4ca617f06e6c0ba0bfbce7b063658d1ff7be29b9f942b8863a7d959c58ef0ae566d7a0d0af5dcf282032aa6ca1db64916a02ffbcb4ccc33c732d3b7325804c8a) ::
  (false, 0xb1a6fa5206586191d727280eed1eee1d51a7bb46ac8a7226443f32639f75a0efc9161de2ce623cba68625df8cc47d4d7e2ca8f7ad32acb5f1f6145b1f18bd839) ::
  (true, 0x144b9ec772a3ba6f0c7aa0fd439a060770ed0229c645b598a20008f7acdb7959d24ec8fc8d2721d5675e3ff2c9022793cd44a9d8ee72989c465b12f453ec78f16) ::
  (true, 0x13e1984f98d6e75cb5711497adf0948e749aa94817d3245336b7fb36ee1f72d1bbf14cbbcfa19f47b69b1f9ef87b3d7287a8c43a0c0c9512fb42f3afdbc1b9b8) ::
  (false, 0x89703a48e55f4bf339bdb3a96c0f75bf0370c9fe27c6f41eaec4d8402d11169831fd0801f85eb415efc71b5e966a96af4c72372dad1cec92778a7df22066b0b2) ::
  (false, 0x61edabf2b6f75d6ae4a53b0ddc9cf1ba83809824e09f897c444a64e7b8fb49ab41c58b5870aaf084783373b89f8855c92b1ba9ec145aace86511998acd84d683) ::
  (false, 0x73c376112f8e552875c3325f1f7a1bdbf3edf3e189669a32a16af2bca9f31d1ff8d5bb00d9518fc716e353479484f5d29560ee32dafbfcac965149af6e722c7c) ::
  (false, 0x2e95ae047e131a54470171b04033829ec2de92b9e316ad84959830fd7efa37d7e377d0a6708fd58f76ce9373e67d00adfdf2a02150241a2d53810d5e30b9032b) ::
  (false, 0x5deaa026bcd6a5581f35be655ba7ac0e336b716c142ceaf078c36dd99726a93a4ff306d50c59cb732ef0aa3b3733cf170cc239cfed021f065f06f1e127fd3655) ::
  (true, 0x872b067f94e11dc6601bfd4423d1af513044146713dfe7d9172e8ed2a3d6e4c6d2413c0f0fdaea49e200b11c3434a30bcadc4dea67165a7aaa722a38ec7f009e) ::
  (false, 0x2254eff7c8bd28815386c2536a637176c91029b947b347487c0bb3211b5b6017af15f743ef80e26c553a6c6499b51ae9fce3db111566221191664c78c5ea04) ::
  (false, 0x26f98ec9a6763060518fa1fc81526afc4d9e00b36ff04bedf08c8b48296e9f72783574e2c29dcd1a08d458810baab7231ed683aa64b1808685d70e2e4608c0) ::
  (false, 0x1020ab76a58a6ef6f1f63b22c8baec9f467ea8836b3455ffec6bfec6bb3237b04bb6458d0e19f067f7fb85c40b99448072653afa92059c56448a6585777e1912) ::
  (false, 0x45dc1274d291e3f0132f7493af42e32be161384fa19db46833faecbd2a4ecbccac2b26ac453d4ffa3bc5f084de664e37222fbc865986bd6a57d21512ee48ab87) ::
  (true, 0x11e3f8dd2ea337b2f4b709326eef0d687f17b8719447004cc14c34d4195a35331337d74a0cec09b2ecf58769bcc5e8c3de41f958fdfd13547f8dc01af54bd20) ::
  (false, 0x221acef416077b7dcc308793e067785d73cf51b7d480f30d092cfe07d52d5414776fb9667ad4884c4bd9b5c3d4844f8bfede9acbd6bcdc074fa308dd3e21f82) ::
  (false, 0x6d249abc5ac63d25ea8ac3f47a596ba4674ad3a09b165758a014e3168846d1ab822cc635dd83cfc570744b0c541cd395ea55387043e0879f69505b590f95bacf) ::
  (true, 0x15712940244c16157d0d1bc78a2853af33a48fe89ef6511b7b45966c6a14a255ef996ee817613c9f75e9c2f6f226552a7d280f29781af4d8550fef2c6fa08a61e) ::
  (false, 0x2e5558e0d0ebd2ee730136d84fd4791fb640ff7cb4b092970065d38b69c7ce879329e84de0bdf194f744de1960401aa0e5b3849425acf59c1bbb9f09527ec052) ::
  (false, 0xe55d4ad450d0bdf43199eb6b74678e5ec6e0d66bd27322a487c4022692b94433e0c54d3df90abc390268846e693e41a0de96e667e6ab89dfd0430fffe40a4bc) ::
  (false, 0xa502d2d10bcdf68a6a4f92179c9550b63718b07e7c318d9db7ca72852137b1300994940a0005f879076b58494343318b24d749d8d850068fc6163b5229d3dec) ::
  (true, 0xb23e46a4cbd1d522c90c2ee1725785f8f2d0767b0bbadd8489ca1c7b6420dc345e8beab13545eadbe0389989f798463bf5929a34e4f87e89f80676ca9e395def) ::
  (false, 0x30c334567324fac97267a5f4dad2ec1b84b6d34be163ff9d5c3253e354ba97d37824fbfe840785d233f7cec0b7fc85f4d482a274e517a71feef042f7ba2c44f3) ::
  (false, 0x13ca9165c3f83cc8593b0b98442818823934e35e8cdf307b5a2af422a4e4023f61f6f5095994093b153b7860617b8911d8aa6d2d1da6e309067383c38739b562) ::
  (false, 0xc07ac961d7cae197a410a1bcc17c2a32256358a09e4ba3416957406cef687982da5fa3416f4716564c0d611fc5d25102ea21d617a9a768799b2a26c73dd2d8df) ::
  (false, 0x1706400ca360d1c022c1d5440be4fdc2a5c539df2025cf8fefeaa4cab6091c5c26b2909b5568a06006e37088f8ce527974578f4a644a464480c2527b9bc4c745) ::
  (true, 0x51ab4ce41f5277e836c37db71d21c906093a93bf4f98721769ab30eab5d740717cf7a9d124021f1ace54bb826816f520c844c0f3de4c4da7f0bdf1ee2a5bc334) ::
  (true, 0xab295a04f8431d6ec45c31d3892faf18646879e168165f7e6536846ba3088effdeef2c5ae24d62215869b7fc4d060916855ea8465d2e0aa644dd667654f2) ::
  (true, 0x16d4d8027986afc2c105b3e30fb0afbf7e6b79b2a39ac87ad3f3d25b9ed3aa08c127a0ccc008d26f4b705894a9ec0fe3b9fd0b221137d774205e183b2c0091e4a) ::
  (true, 0x17ea7e38474e37dde17d7ad94d24daf31a77fa44a43eda449eac0079c50252e19ee797e6e04d11ab84d333a77846c153657e59429bb40130e6fd50036c678ac02) ::
  (true, 0x3393fec8635ee6641d554a8ae98973b569e231b8562d8e688e56eb932f3225d366acea0c3e20c06eb8725c0fe08302aa0f3b6320a7af16e16e23b9c0cad80c53) ::
  (true, 0xc1e0725a0dd16e4c098e1d8b28bdabf10c0258a2123c1aa51ef46cced7da4e729716e32aa5912c885f492d0579e4bf7ffb94820a6cd587c7f5adffe7e31be) ::
  (true, 0x171a27e8b559e507a4f31b42398dfe14c43aa9837fc4a06c2a549b70e5f42eded4f673f70fd259287daa6a3def7f9b7e026f708c593eafdf564b3f8eb9b887aa3) ::
  (true, 0x124c3c4e4560216b462fefacd0aaf3abef9ad488ba4d83509e86c90d12fe55ce0fd49ca6b42100aed479a069a9b3cdfd93135de08268ecbe85e926415f53e83bd) ::
  (false, 0xe4d7e8b840828ad99dae30b9b66c48966241e938ed4365a4fdad34c85fbd77fa153ea2c22965ebcaea726429486e70e59e0a93e78eab03233078f5450c1dad6) ::
  (false, 0x1a97975bbd3cb83c07885ee6f1d9f93ed89ac559f59cf81303c8ccc7a71b4a776b56b3f57638650295ebb45839f551d60de8bdda6229d72a05faae9a7b520) ::
  (true, 0x6c1706f0febdb6f62254d1a67fd7f72bb8da98553165c17ca324887317a63ee6814a03cdac8acf422dc13c99eed081dc26e72a40796beeccaed27f46e1572984) ::
  (false, 0xa09fe2d77430a8b3a19004f460d0ef1566358d4cbd1dfc00846984ead6794f5ed30bfbde71523b976c77b08260818f16ea6b351d322365cdf01d1ada28d3064c) ::
  (true, 0xe5a801e1174df8463c914128d5fb11f93c438caf0249dcb85781be8ea0c1de31bf417e62b16325937a39810a6f11f0050fba7efd82dfa1aa239db0fed58e6b56) ::
  (false, 0x3049ab5e1f088e4236018305c35be6466a7c50a54f500f7f0390766cf87b575633ddc42c4f2a1e1eb9ec6b5ac396e965935b1ef43f39c444e02c985a2e42655) ::
  (true, 0x430b5065fca7d3ac96c099df2f425183f1dbcc81285fcdcde360ee83be4ccda2a3ddc1b5ed6dbefb4357eeebd979e0e125e23d9ad6e95f3bc05fd861cf43bb30) ::
  (true, 0x3ee669556f941168099668e7453643964812542c73fb2647ccb18bd2f790fb722448ef271ea42a1580715a01a07708315991c52d51f9a1ac8f2d685998d5a9) ::
  (false, 0x8ecd8df3c87c7c21419e1e3b2c90f0904efdac75222ceb58acf22c2fb1f85a6d9c8730dfac55f9e76e8379cffc9563eb1f2d7ec4b1e9152166d08282fe028f0) ::
  (false, 0x7e44c3aef164c2bd1806b0e195f45d068453c811be12bd7aebfc75a585208b3896a72b5fc64c17de0977594227a31debc153fbb7073933931eb880e6b7eafda7) ::
  (true, 0x15881e0cfb7146e6157e0303755e5043c1dcaa4007362412e9427fba6bd4483df90dd3852f33f2cde8bf0e04a95e360b7eb62e2c7050a3b88e8556ba446ef3459) ::
  (false, 0x21c2f3a115a30fd279f4f5740517d26dfc5ea1ef0dca347ac704b6e2c2648b9c327d23c9829b3976e855c2ec3549677e0b07cafde51ede21ce140484490b691) ::
  (true, 0xebaa1cdc693045a69b4016d274c3c9966dfd115b03ab71082a659a798ed81f725ec30b4c4ed91af6d01d6b3fc2d8d012b86fb1478eba598a3c4017ed635e4fa9) ::
  (true, 0x1388f5e96a10ac255ebeac9c04fd54abc6faf04ce8b2f807d4beba90c036a400a864992808a00dbc9a9fe87a3f7fa9b2285c74bc52fa3c4e3e0fb5fee5c7fccd4) ::
  (true, 0x122a7658aafcb1854d72146a918879458658d5345659e3586c78c5addf46fba9442d5304ad4aea5d38c2f06f2152150f10d10fe0c968b5a920d2b0bd9436da441) ::
  (false, 0x385e48ac257efd1339223a024fd13584d3add7a4033d90089229afaddea565828ac0f9b40f9239a29f62ffcd7251c9cd28ad6496fd4b4cb116ba04dc7db09b55) ::
  (false, 0x30c29b0093dbb5eb963247b20ae761566050d8c5c489bf934ef632d7cefc34b00c8762f8451f5326cbb7c70bf9c6853ca8e7d09e10eec0355206cd9132627180) ::
  (false, 0x73934cd507cb7669b8a7466a527a68e87937ef93d48b9fc67315e9d2ae342d2bc4ee395356dc94b393d852723a799e2d28b30988b41382022e6c4f17394d401e) ::
  (true, 0x10e689285e55d13f949f39f5e9ce073e0df65e627cd7c9bc20390c82d42c7842f09c3e9bd79b1ee01e85aa01f701a5f03d91c1f0566d41e740ad296b350dcd35) ::
  (true, 0x4db0ed79dfbba280d5886e6635e6304930f893a1f6a5758b8ec6f51b8709f3d4fbc6118fa690c7225cde4bde7aa2ba8e1881db1ce6dcab14877fa1ddaede5d95) ::
  (false, 0x46355ee39cd807833c2dcfa971da8fdac1435b3d03dd1c58306797b08447dca92b2956e993ade17efdc036fce322a28174060aeb50437647ba5c6bb6815f6f3b) ::
  (false, 0x8b7987190f3e0f0d31f14a094a90fc28a6c79b3b767eae6755316f12637723e4999e66759e8034de71f0e402e73064a6d16b6e50aff8d00afdeb17f9c3ab46e1) ::
  (true, 0x7fef2d7f3e9d2c4853b4b88eaab357e439bb185fa6e97b8b9be1d0e8cc5c9c07c84e27eacc0816c355f4fe6bff2ee3a33cf27fcf2bd25db77afb92e20989c12) ::
  (true, 0x14881f9fe88d762bf66d1d98395a67a086a310541387fbfdf617816ccf99faca5f001a86d21d4a96b5d8eb0bbfc9d1cfdbb5dbdb59f1f8019fb20c407346778ff) ::
  (false, 0x37dd5e02e7eca0ae8d690f2b2337dd887024a5c37afe49c10430f56f2e59f2d6da65d9b3cdedd1ceffb6de767451be422aa269297eb083da506177caad8fe513) ::
  (true, 0x9aac206086aca4637c066f2d5dec6873b5c638021350cbdeb2a64b86889f2080b843f14d8eedc1869c3c396bcc77fa267d0614a23f6f39d8d4403e3593d5ec16) ::
  (false, 0x6c359e1005db859ca9db23132a3c24c2c7649fbfa7a1d0baee784f6d70f12d38c6ecd37a08eef25f4006b2faeb3b64feaabd3888671fa9e600ec378b0beb04fe) ::
  (true, 0x42b923e0b5105138acf47348b8ae10a452724258e5522f71d864fb348878e7732d159ef8d95ee182ebe816a01882a1bcaab62360827b6874366bab90c008fd79) ::
  (false, 0x9a51e7b99eed1649da41d510965c491d6d6fffee16e52727a5292364b39575214b0808a75898bcf81825d41667a4b7de2247b9b729baca70aef84224031d1de4) ::
  (false, 0x8c2c32c5b6355eda9cf4fa63e5bc33cd86a0a0792d0eb63c90c2f35cc7c1e83a525999416d2dcec7f1cf1d36be792211f4f46bcb7c76631b576c90260679baf) ::
  (true, 0x5341ce53f30ffe5c798ef3d47095bd618173d9e31c0810c4f613984616488257eaee7ed9402b9d2dcc560d4709778391a4ebc21656a0dc7623832f253d826f0) ::
  (true, 0xde4bc6e5dcb1429a0169c2384df1608fa5cbb5c158286f98323237f446163a22c4ab2bf148d5bdc4e273524d97b8eab7f3bdb9aa2a80c5d78571584ca673b692) ::
  (true, 0x1805b849cd4ed31076829dba7fed0731795e80f02a2abad7623a1bffaf889963d2d5b973175ba36fd73e2e6d2c95069d5b5a8946a9dfa5bb2fea0e9c234273916) ::
  (false, 0x1f26537ea4190167e98988f698ad0f44963f913611e29d8f77aaf05e87817c2381c8f90bbcc4251864f7fb30cf964233eab1aa181e91dc07af752bac410a866) ::
  (false, 0x356cfc63c7a8b322e0f0a2f24cd6e1b856565449011a395fc2854ecedc51a253bfb92ceb14330d0fe992b2c6c73119f0d07f47a32866e97d1427166b2ee7fb76) ::
  (false, 0x90f259bbd86e8f5fed4e62e370b3c35ca53995cfbd1e8f0006515fea6f2fd8a66cde1bd43009987da02f43af819ab27f140de5d78ae2ef3c07587fcfe4146044) ::
  (true, 0x1592ae0bd6fbcfe8aa151a4afd3b12ddba327fbb32b6bf9342fa2a9b30c81d7b24f703f5db9b848c1714ed96cb80b66c7d1baefd32e139ccb4fceb8b592da9a80) ::
  (true, 0x1a104d9ff0266c6422893635129515856862272ca0f97a214f798d575b9160587f8819a62a8936334233ed52fd3fa47954feb203b73798d74a560b6e7ca3850b) ::
  (true, 0x5ed30de613a8da5c3e0695192c90cef7d0aafd4bdb9a48c3f04b59b5be8777def1e30afa691be80eca2d0e95d9e11f6ad02b20df2fca0aee45e9ad58d718875) ::
  (true, 0x1045f45f5abf45fa9f2f932bcd20e53646628e9bd968f68fec894e6e8a92eb07f0f5d1dc039db73478db93c922229dca5d276bbb6a8b903df2107e197a7c5acbd) ::
  (true, 0x14a87f48945365cea9949daa1480236bcdb9ddc6eeb1794e17d1574ab7c981aef8da2f0173dd75967415cba69677b7e901185eb2157b06785859895eb34705d31) ::
  (false, 0xfc6273737582fa64e90b543efcd3b48886b2767e479ffeea54e1a2519fbde70bbb5b4fdb9d7946198f6dd6a6501d6f197ea56b6f48c4c672256b5245a94caf6) ::
  (true, 0x66827818fb541af8c6fd0ec1e3eb879dcef984533fc4e3a9dbfd9bed0e28713d545ac57d14bfe7f1a2def990ae213bbb2eb8ed877d2873519d53a897235ffcb3) ::
  (true, 0xdaad913ca9a9ab79cf1720a8f6c3aabe6e37e86df522f26143964377a11c662f3df92049c052b0c8e1ec4e778b879851b766addb9216f3aa7585fceffe63948) ::
  (false, 0x3f35957cecfa1813e21123756e8a8ebef23fc14c1b4f919c21d6f34d9c5fb7da3dfded373abd0fcc05084b4199aea9c1a448f480172e26f58f2556b497df674f) ::
  (true, 0x797ed9e46eb195c84598d7f113850efb298372bf96d2234874efcc9f1d277c69f258d0781860dbdb8141332597ebb8b3d833bfaef61f8722cb3aec5d1876910b) ::
  (false, 0x62ddc5a1f06bd2eb4670d31bd9398d4345309b5afd2a67fa7b186a3c9de51e23832044167d4d09d03d8ce2338ea8baab351d7df3536b7d2463ea9718aaddd31a) ::
  (false, 0x907671f68e8c9781aeb3f1c068bad57b240b770d368032d23c81f9d509355cc5f06fbef75038583432b1a6bf2b2b98d4301aaa9b824430db1a4c81ff20ea64b6) ::
  (true, 0x114463119dac22720445eb9de567b1572419d313283fc6a1f3a8dba937771ed8f75e289a07b0f9131c13f2d1e49f7bc9f7015dbc6849005b89576ecfda4eece5c) ::
  (true, 0xe24c4e3823397adc9170359a4f1be711b8d495bc389aba96449d5d55c5486d55622cd6410213ff67c303420b751fc8e19e444ec661e7fe4121b395b799775f1b) ::
  (false, 0x2e590e90fdddffa9086345155b0190c9596afa15c78ba5901097bbb2706eb51832028d42b418fbb7ea6cd42cb274ef4a35ea36141ba45c44c092b2f58e4095f) ::
  (true, 0xe58ef62a326ad26422727e180d3dcae00e20e36f7f61f93445565ba52c10ac0647014ee1a98c1004f5370e9cb9926e0a7cfe98f7223bad19075c2c50e9d6f805) ::
  (true, 0xd2f9128532cbd11c0eaa1f643e6890cb4203a0611d536e646cb76b03ee1e83d82f357776da50704f8b4a95e655209d009dea75d71fd0fd7389800db0fb47bd1e) ::
  (true, 0x3b526f7c0dca44140afc3a158aeba4ad3dd815db64a516a7f3fb93d98df04705dd7337d2017e66ed32d60a89727703195d697f8f8753a916a1e40fd98d7ee237) ::
  (true, 0x6dd877e162f989d04bc5e4f594411ccbf2ba14716b6ed9848d7af3456026d84fe2e551d50de055943149cdd2e4f78fef11038b04eaea3541f8fb1c80d81ee456) ::
  (true, 0xfe6f85f805664d6d9675b8cc8f93450e0ce3b6f40e892b9157caf73d472d40640183e4a4585cca6a16c29cb11e558ccf72bb1683e8784daf5d3cd540be2142) ::
  (false, 0x1e808c38b4ca42e55a86314d13421f2a14082ea846f75ccad34e2ab078bbb2ad6a31336aa69599d8a0da4d8358e4a1ab7221a8aeb06068176d967fef44a959) ::
  (false, 0x3857a470b5d20f801a3d4fc3d60870dc84532cbcbcacb74bc2aec34ee4f9eac708aeadd7400afa6dbb472acca576fdaa9b3a26d8463c68907ee950041308c10f) ::
  (true, 0x899a93a88034e612ca3c65f51b1785a52217fec219fc168da76952681fd3793c5ef5bd78f40d5114de2157c0ea9125bb07bcf10db92f22aaa6f1f6d5dbf43d0f) ::
  (true, 0x9d61aafd75e0a1e5ce93db4b375e4195d6d19cb8d8619240b496af60b0a4cbc6523347ac7e0e39e48a51bb1dddde19ee68189e4e93ebb3988b6b4dfa28d61107) ::
  (true, 0x179d92ef2c862bda8412e2d383bfe3c87d67d886c1edd54b45e41ccc534fe4d652203cbafc82bccfaab5dc2b6e8cff090265d123a5289d4537ab3b1c02d4862d) ::
  (false, 0x194a1f372ab6a646466dda51d43a6ef0ca88ddad45c4a0a507db9d2b0e7587a6cd7f9d8e267de7ea9da993a22b8923df854eb2cc5489a7e62c96ed11c582dd8f) ::
  (false, 0x35050885660f757e4660a13a234ab10f71c7aa75a80fad7bef29dd82c6c124e6756ec18dde865596930f328031356b7106f1b0e5a5c23d38fbd0ddb458fe1f86) ::
  (false, 0x69462ebe9c07d924f7c81fa4fd88b0b4fd3057c0caea8ca0c168dad2d8fe3efe507cab166d50fc00079116816f6d62a8e3e9babc23eeec1a3d27df771ff3a) ::
  (true, 0xf9697dacff841a434e5b48aa5c5a9f30a574b76209d3ab17daa9363725055e6e484822a68e926b567b9de6c7ed5356511ad4a8899322f3ab2cb7719302604864) ::
  (true, 0x15646212298180f945d051bc4f0cc9bf8e544c84ae76dc7dc7b90a93f47e88e61aa327f99a89fc445bc9d5d750582950f35741878b091294b1c0db3d2b04c24c3) ::
  (true, 0x9392cb1319d6b83a8e856a3f9aed435f67e6e489bc5ec5fd3c80e1995db1400fb07ec575148f34ce480db984e7aa95dcb8c7b865a78fef99bc5375007f8d8a) ::
  (true, 0x3385b39048fde0112bbac7c0f70a4b379b4e7615db93528d798b68d9f275af18a515e716c02ec2ffb118c5b76cd0243df98e031ca36549c66e3e96cee760e39a) ::
  (true, 0x4da0b2bf4aa20db82a10b0bc798d2a01fcd6cb14328fe847d485046b723911e9bfc6a01b6755172851baa3fbe29ee4808b20b4f15636ca7971afee09d34511e7) ::
  (false, 0x24f15ceecda489bc62d1470f6f3e1ed5b72b0cc6027849130df646517907980c55f2bb679003de9caf5fca0f11d25e00f6ca967b9b0069e5655c651493f9ed3d) ::
  (true, 0x69bccadc99c30f96d9d77d13f1d59c62d19af1b2f962775c7cca3f673df84bcc1d5f5e853779bb565e3fa25b9cccda00f9b10f0e01bf70df57916def9c8dc234) ::
  (false, 0x4b7b907c4f988bf3144103cc583d0dd2af1493c5375dcd653d6b8c0513fbb4163efbb7d8081cec2cf934e27113e1f0bafdbe2713d1a115dbaf8db649dbd8e4ae) ::
  (false, 0x3c987a832ee02859114c5c3693f43c77305e5d3c228d45802b922f172f87595c7762165e883e7984d2c3e01cb63a5da48eb88c1c1d627b393653cea7a27e899) ::
  (true, 0x1232184b5368454ed1ce4fb2579bfd45c75f4a0c440c0594ccde043e581bf161cb225fe5e091e5884e51eedbf5faa99b7e44008830feddcf484da42735c0792ac) ::
  (true, 0x134c6f589e9298d088f073a28ce4cfb4c61b0ca752eb24cbea251107bf604eaf2c0603b4675fb5c06343a15fa4af26e1208e5e814c54de2bcbc581b9c4d44106d) ::
  (false, 0x6bd9e7ef61a048c333cbf2e26529726163fa38817bb90e79b54c3986b8c97b0178705de1df4ccbe6788f1ec6b5ad077616005e44891fe14aa274ea7d62597e4d) ::
  (true, 0x13e420fd4132ba158366618355e9ae35bc383b0a4e1b7e3bcbe08d4c63877a2c7ffa597d5670af73b95e78c5947a8ad4be1c40353081378d46dce7d2b510e68b) ::
  (false, 0x65b1680fe013cd60ecbfeab949211ed99ae512f1e693b98ac4ae4d94cce863b9b52adcfc0069b075b6180202553b0c6f972afb1332309e6f395d0bc4ce772048) ::
  (true, 0x3ea91ff40ed7e14d13d0185c4e5cf039d457504735350b6470fdf3947e6384daa0f57d2b57345aca974cbff47d17de29f96d76540391a486bc54f6b4130f5426) ::
  (true, 0x16c3fde16268dda769a209b986f037c55c46ddefd726b2af8b2f8ee2db661bf8e7fed42b1ca19f74bf015b002c0bd3cc798c085eab9213995bff94619850b45b1) ::
  (true, 0xc0b3fca141150245ed9ca37f1f588282b092297932b59a2a687a7b29297b06428101c1311b1bc238ef1e3a5cf1fe5cbe19b0d6c5de133973958c58501f8a293c) ::
  (false, 0x84a9c5b731113ce625384b3e035730f0b0dc6b03da3e53eb081ae73f195cb6bbb7928a77ff2583554660ac20ffc984a0a441398d1e7b6f3add01e304fccd2606) ::
  (false, 0x72c70873b4702468e2b013eb335b1b5a3e8a6c20a6ba7f8a0c6fe615cc1e5106d244c213635f4d66bc392e6ead55275bdd7e91316bad9bbbe0e34f0a4854509) ::
  (false, 0x227e663d51905d246ff862af692bc1b64e530390fa2f60d6ceeccb4664cf98f6ca3ec70960308658d31a91cf68c9d8ddfd84404aa6f5e8735065dd0f7c3dd966) ::
  (true, 0x158a61cf67d83afecc782d9e3a971de36adf147b63bb62d91f286e833819415b2c09e0d606504a9b92f687063f7ca2af154e49ec4590ddfea0f7164a8a1e71eb) ::
  (false, 0x791d4f59d965c79d6b472a3d10e2b0de99224606e658fa456c4b1466bf2ec1a24b98bd78460eacd59c8cffe81232a456d6b800e7baa9d8dacd4b5b1d1d3c95f0) ::
  (false, 0x10f852445df0da01736882ca1f8262192dc4c6491ba908c70869c32d55e1ccc85fad454c7d4ded90d7de7caa72672beb119baf94e92ac8441b1fea6f10d25594) ::
  (true, 0xa9f0338294577b5265271a92e5d70c5d78a2a07c90d6112dc827f0fe48e7b0fbb293b07fb57ab78bab03e0a63421420809268927ae03614dc2389e3531b84802) ::
  (true, 0xf483b0ae8aaa1d75e9a12bdda7f4b2ab641741374f79a355b5fc5f09a76d2d775eb1eaca52aaf2ac7372666b84b6b21888b61fdd518c08dddf080c83de44a1e) ::
  (false, 0x6a5fc208565300095ec3b8474f5db869bd0f42f1ea4c9158e7685ce0216cd17b89e7aadaa5e15ac66aa05ba4519aafbfbdc2c23a3055e0636bbf1dbd96a6bd9) ::
  (false, 0xf82bdd0466a434a2d0f0c6023673090ad3b7bbb31c094b3a2984ec7f4d253561f252bd94a0322f7b3233dfa91a972bbd46ea10e0eb81799a527c9d18b24a956) ::
  (false, 0xab4fd534fa9cb4e86b9916f33aba4cd5aca013cea067918d87c963c38dce5729ebf907fa93c4556e1582a20c70e5ff14e7b436fd06856eda5d51d6ed53b77596) ::
  (false, 0x7edfb81d84730c0e36d415e82e85451f27cb41cca93b612461f7f4cf31a037dd7c0cf8f7c8d9ce5c34831f2508b2c770109d97f1dad3ae7a6d9afa1c6be91a4c) ::
  (true, 0x4285506084e8135cbf4e8417d2d5441f08680fb207bed9baf7032f86ee56c74d278b533f9e2246418255392fc4905c61669bf586249df370a23fdd7e852ec24) ::
  (true, 0x325b5e5e2181c4adc788277cf88f6814a54f1622b23700c394ffbfa7fc9e831a46002ea473a28a1fe67455eca252e2e8eb53b5aa426e5954e557b0047fe3cea8) ::
  (true, 0xa493821a0cbe13cc7f502c64a55914858fa32160a5538d9c5be5fc75a8cd9f29901b1ef3a6190d023071ed234009ec313f35127ed9a4bd11edc09086da483552) ::
  (true, 0xb35507627298d885bf30139808b65fe316c3bbbff18468d4754fd1f6d904c13df47195b28f6b310cd2fc93ee64b0f3cfbaec848a1796d3e1537cf456692a633b) ::
  (true, 0x22000794ad1e2331b25b791e6fa2ab4678e03171e0e1aa1d6965936959391f5ea11467da943f670d72ec09421e60bda46b28f8f308076829d0927512f6faa488) ::
  (false, 0x1afa55792c7837718edc3de94de7c5a6050ec3fd38629220ad3295d3eccdb17520074a7f73b467f562528d1916a7598998589764fcd6cc33a7210776db7a4d16) ::
  (false, 0xbd4f5f894defb98f2d81627d364ac39e2e4e735e4a1db9cb230e14507e3c4dcfddd6459225966fc220a4f8935889a1ff9a19fb5d914bcf52a2fd4cc4e48b45e3) ::
  (false, 0x2e378983d91dea530f8e9899b6594db6aa9db7f6755a74699f4639c11208960a4dfe0954a53088744bc45681282a923c36cdf7d23b43bd7268f76a4503f6dfd1) ::
  (true, 0xb4cbcc2cf2af0624a35d60248c5985416d3299f5c899a7d88576add4eca3c3674b3fe8ff9767efdc56681c809978774dbb5abf6d817bd760d57172fb76a74f12) ::
  (true, 0xdcb11d4052e50fdf91ee0a0340e7e6a8ca7853e95ee7f49b7a8bc996e319fafb3ca1a0d8f85ce917a08831b57f216f4c37c898e307af5359fcfa863a4230eb58) ::
  (false, 0x864916901288ef373ae0eca0697d285d877bbbb9900bea42685774dc7985c4b4b9bc85515e88c84bb22f2f78bee13510dcad5eb99a18d6ce90389e05c25425a) ::
  (false, 0x6abdfe6f61fc0bac839ef93ed511740c9a22a9f5e66e118eeced9700211b22ef3c0b7f0319983d5a7ce0fcc47a44f420ea30d15d38b6edc4dda7ce7cf0f5c145) ::
  (true, 0x29f17724a93248ada41f15ace34c7b0b620da888dbccbad3d20a9bfd1745f9a5ddd8e1ea3f8f564edc187fcd212a37ca4d2106b58d189e8d44ef9e46284f0a1d) ::
  (false, 0xb1c48037158ed039eae05464eba33d2ca5d1a0772e14ef18d91f7272097232aff9c59a56c6524658ca14c743ecd490580554ecf0a8150b1245017358b356fc0) ::
  (true, 0x247ce69870664bf9174814649dfeaee95ff675b1500a47c5bddbc21846c6d07a6ac7575469e3288e3f498aad73351c899f162d3285004b60a13e3cd654d2f0c6) ::
  (false, 0x1735e4e56b02190fbfbdf0194ecc93ac828343590165c8f0d57b3aaa3895f8531a327be74b7e5eeab9e7fae5861defa0799bae9c5508d73c3b854bdf6edf3d35) ::
  (false, 0x921c2c93ed467784e83ce56a2bba5d455f2b4972bc68467a42730c4417b69b9bc5cb01d840a2e619dfa56c39f0024e103f0005462fcd1a58b1b749a3678425) ::
  (true, 0xa36092066311bd01e1278abc632fd65b52da96ee716487f0a2d7d4fbdd5f6a465b5eb2b781cf02942e0a127c2d1e089a8b7a23271091719331eaf494b0331304) ::
  (false, 0x780f7b0c465b3653d1093887889bf9008b8c000d46e480400e7b90fd12436e95613302971dfa121922b7996b1417fab1d3b48d36f936eea23fcaa7f6bb99823f) ::
  (true, 0x3881909cdae860cbf4717d5c42b93ea5fbf911d9cb1f6edf0f9bcf7d5bdeeb789094fa345c30bc4fef1b2c70f73c70c470531892a7ee25524ede729a18f3481) ::
  (true, 0x5ba550d9a4b34bc4cb206283ab7b7311ef052132da0c57b379aa7d18f535097d2041e78a407a70982a6bbcb0c01189c6749408d93a439fc77e66f06558b84ed) ::
  (false, 0x540971c30757becac65035b8976db16e13db78a5aa8d049002dc181c039b01c82a8aa6b83b405b86133279921c3bf00660266169110d237566c395edcfaa4a8) ::
  (false, 0x4b40ddad1772b9eb5d66329e67875d8f9a9d96dbf21a38893301e8d43d8659624d7b016d76f2355fc1c9acc24586953f501ca892120579dda1408bad53a147c6) ::
  (true, 0x998277e9d4aae5024a8342317c93266a5fbc24ebe009e82646670ff7d0c022cc5de13c3ebad6d216834ae0173100135f7c744214f0202ae7744e8c8809208bb1) ::
  (false, 0x20de177a8a1c8954fc3f14cb6a65b17a99e8aca68429677e1ff31bf06569d53294b61383165597e9d11ab7ed91131e8d78a673358b4882720ca34cc93a7b22ba) ::
  (true, 0xdb146c326f28fbea18c545fc02a3ea926ce700a6129320c539f55ec9353a5094a36be74683ab128f478b91a8bf7c8fb7a314cd34aad924eb32a50a989a637a95) ::
  (false, 0x713386833f0ed740c54b849f0c979bdeb82ec5b273cb989a1cfe283995ef6d0a85e45ced8227a95cc53c2ac5a70a36ce4eb2fc76a74cda2cbb9899b8d15e6b3c) ::
  (false, 0x533441be09ce9c2c40c0aafbe5cdc194c5b62a53a70a777cc5d24efba1b02bdff35eea19dfe587fed2f9af8ea8754cbf79aab05fe343b799af7a80798d6817de) ::
  (false, 0x103e60d07162f0fa0245c58c1b5ea1c74a6c99094ae649142363ff2597a3b8823c75140890365dfdd99dd8a666eb58321d4b4752fce28cb11df3be6b696e35a0) ::
  (false, 0x7a564173e7caace5074ecacee577b1f2bda9ffe8f917a6e5ca310f0fa1d5d668c56c0bfe444712e171f71ed8fc9ee88d5b879b24d6baf7f3bd87bef86c4d559f) ::
  (true, 0x582e0b1a0d1a9ca0b5ade35dca679489702a40ab8f15736894f9b293579b838a4804a80f514245e676301b7b57ebd467f3054121838ac2a0d7591a3b3d6a6177) ::
  (false, 0x689a817eeb8d48bfec7fb281141a70dc0c21eae80905c447a97fc9e660bd9ff6aeb34d70d3cbc774333418c52c274667f8d9fc197da712424ded628dbf21824c) ::
  (true, 0x317e8957925ff60f85ca0e3de6bd3b37e3e90a93cbdfa5bbf88ce4221c1402af090b3a78fd2928b3e8db91b7d64008c20c821332a587ec3dea8fc30a8ba839c) ::
  (false, 0xacc0fc55989bba5597fe19350e4495d9937678a76f318ccefd3a25604c5921987da667c69ad45d384b6fd4747a3eb805eb0e1deab1ffce070626ebdb5fbe3f47) ::
  (false, 0xa21ca9fd89d7ec991fe0a51a9b830534f7a5f5b1ddfac86775a977715eb323a4f9df1267d60b179a668caa188cf92f1b6cbd9634733c89fad4fe3184e0e44edb) ::
  (false, 0x67c71e6113dfb7aea11c05780c4b96d210508886ef98c9f66e302fab80b19fea8735eaf5c1d0eafe18289629ea51d10d0bb8ca25d7d72c7766b418ae77274c10) ::
  (false, 0x12e2a5ac9f17b7913d7b1007ebc9434acb62bdbc87fed4a8eb3bfcf78fffecef4bb6df4e7742d43f902a2f6abdf8b708e435bca09724185d297c7c24eb685e0) ::
  (false, 0x24e326ebad2fa4203ccee81b651e2be9f7614503e9dcb3460c89f313b358c8a3f070bdf17fadcf9406e6cdb0802b7bb69923e73a0c5772b6b33aac010520b7a7) ::
  (true, 0x6c3dc49776ecde53b35b4beb6e611427e4e35606173b1acc8f9cf59a0c5c2649d7b1e32afe4c8607a183d271eee2e2e9dfb873e0c646d2c1a2986b2cb8f9a896) ::
  (false, 0x695dde0fb7e8f5c7159168e7c67f43dcc547c94a92c13f9d42a9f95c1aeb78a90a0b9c6f21667cb8765f5254208360e4dd0247afe72247e334790e26dcadcec3) ::
  (true, 0x132363e2eb5afb85c49d83d6a79d36c49c3f3b998b9203863de1920e8f7643607a32b0ef4dac1fb3ac084ad30d6a02dbf430265b619c11310e8ae5edb3c8916d4) ::
  (false, 0xd5830ea09aaeb96a5a5707f7903579e878ff78ac1e2cf1a587499741357db01a1dd60b4c35be114be10cb92fdf74c9606ec2e0811748c5100f7724d834e8a) ::
  (true, 0x13422b9ad8d30305c92c8782f313d31e5ffe1c7bd16bcfda9f0526798e521be122d00a7cea3277b67c385b325fd13ab61b8eb4278bec111ec986890d5f29e6a) ::
  (false, 0x28773e2856c1d22aa908782bf529106d6e88e944422b9633c181f6f53da13806ae597bb02cdc26f9d5c9e57974b9b94b98853485f88471610b0b8d6e1b30dfaa) ::
  (true, 0x4c8000fd0f144d5991b0db43df7f6fc305f5e8c1686c6ba98f94e6f349af1e85b9b776dd1bd9da66ff7ec2f203a5cbca9fd2938f5ee18193baba7dd0029859e8) ::
  (true, 0x210457791763eda0759ca9cab23b5503dff95f0186771a99ee7c80fb099ae63b894368a82cfcf5e46590d71629347f519a06b3a4c53d4b3a1c392b073b63f10) ::
  (false, 0x3bdf71305ebf0dacec3154b700882b1e2b79bd598bce9b9a2076c97945999808178787c956022e006a48310eef32f6138d227629dcb1ff5a1111c4f9c3a291cb) ::
  (true, 0x8920c7d3f6740772f6113f5a8bc71f28973d586720b51444c9872ac8320a3cbf9359bac6fe40347df208ab9a2421a62ac584c5e9dd7d690ac8394921c6cdffb4) ::
  (false, 0x6f48aec205145c7d26e5ff61f65ec0fac704c84a17a528648a38e84f80cff0bafb519313469c45644917ac5bb07690ecee939958fade812005d7770cbdd2b4a1) ::
  (true, 0x188f707c98d0ef282e783f1844b5ff5445b987b07b3f1d7c369d560ca12e81addc59d7183b85ffacf16780d70bf18f1176fa2ccd98b5a7f7a3394bb0cc2b909) ::
  (true, 0x1100cf49fc38eef5d2e6a87a36d55ef670a50cc890483f76f921a04ff2d7e8b107479fd3feaf4061c7cfbb37eb04533ceae6a90a9a2c0ab68ba84002e597485e1) ::
  (false, 0x724d13939528cfdd8e83d4886295f987d78a90813a04e7537993086c12d57cd4ec0be34208004cf17e728b8418954f60796eecb2e4ba1a89074526b710373ae) ::
  (true, 0x13be31ec145b0e36d7504da3be7484720d35201d6fdd471ab7fcb93c053dce69125ba7db8ad204cd6f9faf8d50a1e1b3dbfddd912fd176b61b1c0638dabc7d21d) ::
  (true, 0x298b040b7275c010aced57cfb2bd99f4da7c5a2e345bc248dc965966fd783b56afb11976e8ea938ca1985d91cb319666cb6302c5d94571ade3f134f44aeb8a6f) ::
  (false, 0x2a2ed7150d21222cda78238d5962cdb1591461154f8ab08500ef2424728c3da0f73e6805d99dd7d228eeee748fde90ed5d7f071d9f101eef209a9e8f2d6eb5b0) ::
  (true, 0x118771798997b1d4685d114bb0357303bb1b829ce0eec1a4013994e84cc1a7265fba8a59e8b1d3b6ceb6c616a499dc41690e0fe84c6efd6129215e01e2e3fda5b) ::
  (false, 0x79d154ad54967f3acdfb93deb20ad03fcadad6dc5366d22ca99e545c27a8c4a7b1ae7ef5d1a1fa2930397fff4f9ece8b8300d99cbbc93e0bf32443c80faf8e2) ::
  (false, 0x5018601aedd6f43d4a9f0f03c623d552cde29b1d0268983823f8b80fc5e3117c20cd5bbbfc415c4d4df9b811349e65e5c7240074935d2ad89b9122f2fb537995) ::
  (false, 0x5aab730ed41410537b654350e8bf64a45d6870e4733c28d381c3dfcea741dff2b4c50ff230a792f1c552bd8345c22263584343f5b64a0f6c704a6074b5c3ca5b) ::
  (false, 0x6ad03e25bbe020754011277e10b07df4df7b34c8aabc5a8c40729a7b73ba2664ee68ee37f48ebc78bc3cca65f55728810b5aa40edc7cba8263d81ebc5e420e23) ::
  (false, 0x23ab367850f179e66ce54d01329f4a7fd3404abebe418e056932827e15982cb8b05e41a648e855b749dc277dc500f86f1cab99a11d145072b78834ea34d5e249) ::
  (true, 0x160cbce6784724e5dfd20e14853d06bfe6c8cbdbc4721b0cf46c5ef0cfc2cc060d8ec181ffd5da63e44a4a56b636d9ad7a885fd3829a4c95d41025a09cd360ab4) ::
  (false, 0x847c3e91f056cb810c3fc0b464d0a3f3e9c024e9f0f461ad9b8ccfe2320ac1e1e74494843fe8918c3d92dee7f78f024070a71597ce56d2fc06b42d975a271929) ::
  (true, 0x1149bbe88658f6dfbf03a42eb2db8375ac01b7172664a31fcf8e9c0fbb0ecff67877d323304dcf95b3be4e545d10216cb5b20592f5cf20d0eb0d7ae354c60bd18) ::
  (false, 0x4177f956b7df6b3e8479a3990efc6d7b4f79b94c4cda1d9ecb0aa20c04faafcbf6caf21c139c72fb009a1e9d9c8f2ae095381496c8b2ef9cbe9541cd56c86837) ::
  (false, 0xeeac1cdad085d8ca33edba6d38b24a1eea41b6175eb7041cb837a6745a894c439e377da37b546854011346724236830849ed40118f32737b2dda85597f6b444) ::
  (false, 0x490ccdf163976670234e82a4515358f1d2a03ac6e0d720ad1c9224473d79137dade5dc501a35c9c6f915691929a55af878790297957830cd9ffc40ce6947f8f5) ::
  (true, 0x7b16ca2ddb2bf57fb88eab9c78aea38f50b5114329d4e9adacd3332441e9b3c0899766d963b008a17170f41dc4641ac5b976e1e7be96220b4825cbe6d466dfb) ::
  (true, 0x1c92ac1ff9e2a956b89e17ee23116cfda7d24527f0a7263a366562d363d9989a60c81d299f5498f906dfc6a3fd7e6bd271e6edca21a562e814182d52aa9504a) ::
  (false, 0x2b8dde935066ac28e728a2890484440c5eaac8c56d5808e8a07a4b15a5409deb0ee272636253732fef073ec299bcaacb046b327baa12e7e09a62ef45d720747c) ::
  (true, 0x17d040e01d9f4b7aa40bff6bcb90e3a0e2f0a030043d06a6150e8d1335f1c5261b7e3c8c4a7eccb31b9a92da6be246bbf01a7c3b320409107361f9ef376bb3449) ::
  (false, 0xa50317032363e787cce784423c41dd4e67b80c3fcfc9584867d06443824c396c844cdbdd7e57cf8b4eb59695c4be963c9cc3af4b5534ccb7f74ca8f0aad1d15f) ::
  (false, 0x74b84d61485e244c405bdc232fa783b085fb97f9e97acd6327d01eaa04e497087d0a742bf98da0e6feab6bb9b06c2acfb77fd5d3dbc1bc5c1b700034466dfe1) ::
  (true, 0x2eab4285163747abe12fe4be1f0d8f3a678f6398020f023010ecba9f23408c3d79df5a202b8f7efa6af34d909ae42ddf9db9ef12868b22b58a881593200cc8f8) ::
  (true, 0x99835ec116e3b604dace66e2b92e652ec121312d786d22a4e89c3ea1f09f04cc17a648c9376934994edc852ab3448e4c15df09be0ba9393b52ae543c8cb0e4ae) ::
  (true, 0x11482986b6fc50395411911fe104a5dfe8921a1deb7a9ff4d74066bbdac97351873ab0c3b159a5371dcda0789dff0067cef5ead0309aacc33055680085a9e037) ::
  (false, 0x26c1f7d44250904a94201faa41e0277252b2c2a794924d14792928c8466a8663f8c9a806177b89bf76dd5b6170f7682bb38691d2f81eae00c5d44970303e66df) ::
  (false, 0x90372f0b5e9cc58d8da0508d4b466e4d81c04c59ff0139a21a88884004196e61d5d4d1cad930ea98ba4295d23c708e13aa60947cfa33b6f86b216a5669e0a044) ::
  (false, 0xc64f1dc40afb4c49f97b92358278ac0c76a1f0cac60fc425be93b331fd332547cfd69f3d233f332adcc58ff9bf3c8f9b97a21b513d0fefeba9f51672bc17cdf) ::
  (true, 0xd17e352e5e72545949006a96ed371f576ead65ab330c2bc697a1632d59d22685631524878a6ede05797aee0f5e0fbcaddba2f7dc9ed3d0f475001c544bbb0ad2) ::
  (true, 0x8beb460491c6e1452d792c4636c3acb002b603bb1ed1451c8c3985386c00cd115ab8ce7ab6bfcbdef3a2e324ff4a2821af0b28f33ee7dd32c8bc5b4574b21a8d) ::
  (false, 0x21967992271a1de1cd43562ab529572cada261f2a93cd6231dae83dff08ebee396f09fc1c595ca964be7852eca0cd3a29dd219e81cbceba6ed9b9d897cec7371) ::
  (false, 0x7ea046b892caf75e0c5a718150fcadaf83970a10a775bd21c1a247fa6f25ad89ee7d9f5b1ae2d2e03e3808dfa32dc925880c5ab0993f0cf7b8dd0bcb3607709d) ::
  (true, 0xcafc4b1b7cbffed8ff09ffa3ab77a26a3543ec4a49e3e3775dfa4f13270e6edec8ef685277cc5aa4b5d1575fdd986e01798009d792db120e575327c4b4dc9053) ::
  (true, 0x73d12bdd57e6f0dad469e546e49251dec11cf12c614313ea8ed361b18f40f417890b9824855058db7b92a15e4dc55b89f5701ce34ceeb9d38048a0122304bee7) ::
  (false, 0x7efdcce725eca0ffb710f6e2d46a6761c5bf4bb7680c337c9780721a5d1e0a53340364aac880703045f0f2bfddc6e5d987be9cc9e35c932905cc5da3935b2598) ::
  (false, 0x10f3c8ece1f6e00a0064c56b5d90fb616f2263eb92f794290bca09354986d57b7cbbf0faba79d0d169bc124b0cdf0a0446f9ae73b7e110fd942b45741b6053b2) ::
  (false, 0xb2114ddc77f798186b192f696bebf4e89a25558333b3bc5ffbd6fc81c8a0bff9a933f7fc61f7599ecc5574d70f65d32e41ceca96f3c2a59bb8e54f6b6cc3255c) ::
  (false, 0x51079b1d877087e54dcf4e35a114bd2d1f5e5f30ea54edcb4911c2f8bd8f8941dea6c1369d4a3317be8d3c1556a5e6ed11633ed4cfcf39e1f96d4c05234d5503) ::
  (false, 0xd9e36ff47addae3c03999fe6786ddd7a412ba0491a7d9ad77d30bfa6a3300eb9140dfcc1d5acbb712f9a57e58adb8e44df71a3832eb438c4ccc71d989998e75) ::
  (false, 0x19c7bd8ca905724d4253f68fd8a7244c8b2a150b5070e3200963117f7f981b8592326794f60b9b8b71b81086b5fa04100152a24c86fadfd04a8cc1d6d1fa411a) ::
  (true, 0x4ab4a095e5ff73d8f9781b68ea02e54815f9421cb668f6b20f41445ae09887eb3c3a03d4799fff16495cbb1b377136be5e6ed31c5a541b8672ce8c46539474de) ::
  (false, 0x8570fec4843ae064428a7dce63163e245b317b21b1b1b014d00c25dcc3134a62ab974e555bc8db8dad1257ce735d390a2dc2089274b805557c628d5d95ded5b4) ::
  (false, 0xb095faf9d1918aaa420ed8821ea6958effcac8f0a8538db9e225658096809dd08f4dfd71174628862f115a109b39c33c8c9ce11c20f1ab7556eda36b8b452598) ::
  (false, 0x4ed8d18efc0e881d8495dcc655e43da8629c21a36b344c4a242408506f318fa5c8d97241077ff9777c6a5285dfcc82142ef0b3f0501dbafc007b798ebaf703) ::
  (true, 0x3203ab2c897cfb6233fc9fee1b54dcf392b2a4c05cc4889766630a5f2049f1925f76ec1cf55ca2e31d8d1f27b87258821724664008295a512e87493afc5b4cea) ::
  (false, 0x73617d8ec49a7dd0ae8cc0760ade5b460c42bfc3892f86f3dc24ebe53b3c1dbdf5b76490ef984d9215bf7ca453260c38bee678ea9d514ecc4b09d276db241685) ::
  (true, 0xb50987618c7b83b06aa38db9aa0c1e08e916e83a9108cad3abbea9b22b0cd04716d10b242c065011298bda85c36460385a538689adf908da7a3f93f962da1ba) ::
  (true, 0x2afd14c6bbcea0bd70a743f25388476be018808ec4446538fda32d2c2e63e57adb1b8aa36b2d80ad12f10417daa3eafa2fcefaa2bff3b98fcded21f5ee80da2) ::
  (true, 0xd8991b4a567f1d3a52832357c14e5d453ce6e32e9d9e8e451a5e477cba44634838a5d25e7cf3ec4eefb269f31b143eb325f2ed5a95f1f6e0ac390845bddb58fe) ::
  (false, 0x4a2b295f10eb4a3fb9a52e39df1794762222c29d78cd9529665c78e45d3fbece7672372a2bdb24d39d13ba83fe2315e42106e6bc463076a942c6db5e554326d) ::
  (true, 0x3a26782e4b9937818c96a0c44a68c2d2a02710001da26a8eb853423eb2d7b4d92a070721307eda399e9e1fd904b6ce37eb772907a7195271dd52c7d3b3ba91d) ::
  (false, 0x2334043bec34132e3b1196ad42209c5953b4b73391d636a8476bcbcab9d6dda58150ff5f9a6df7074fee1ed69e697b8e9c79bd3e061357015079cf8a297435f0) ::
  (false, 0x7dac57b6f5a6e6c67a1baa1f3836c840b0ed8fc788c805b4f749bac071ce79c6263ff67ad3351a3c5a7601de199e271e4c41e4643de4ae80891b8d352bf12642) ::
  (true, 0x14e1ab3f98d3875bb732c9a7a0ae85c3c14385ebc410b3ded67d5326c5e139b91ce1fb7632697651784cbbb53f18a00a029160e442f5e325e2b97ba25e7f1b063) ::
  (false, 0x330e8ad5451f76b9038a165984735da9b0cb8f68eac72f3377c6cfe6f6e5dad6515434e9f9dcd61a8b173e08ce82dcfe233e630cc62d623ff385e2c7e35d5852) ::
  (false, 0x57dab37b75a5fee5ebcf486f2253d0f58e8efd379f5dd4e86e3278eb85f5e6f2bc5e70631ae13d8f67672a731b233034205bdf8077fcad1d7e9dfcfd83cfd87e) ::
  (true, 0xb2002bc901a9ea27955ecf86ab37a5f9410fac6d50fc28dffad9013512fd85656ad005a06f7ed390b23fa82aac5df64954e08742b67f0a42caba3ec64a51ab96) ::
  (false, 0x35788a85baa597bef362f65c69dfa1d0361de5eee20ca7d94c2d7726d1bec4f090bb9588e94d7b492016f3525e3c1d52f9dc955ad48f90d1e41b6982fb8bbb6a) ::
  (false, 0x3db4cf0a4300b11b102e47679178c57539b5f01ea96f6628bc50b8c0450354d47492abcad78c26ebdf960116f1221f85322cf76d0c79cffd88733071790daf79) ::
  (false, 0xd15730322992f888b906b5072a4721f9514726e607ef643b3ff1639ca45437acbfdacdf0455b17a1e3f8f09edc2a0977d21906d92d829b0314ab00d2040eeff) ::
  (false, 0x5da69d8ce01a03b2cea2979c0f5933778c6be1f77eeda7637889970c0837d3b0743b12ffc4fc53c1d35f037f1c975b5cc306ed2e31382955f16b6364fa8a849) ::
  (false, 0x8f37171e7ae9d845ef3b168358de9d476dde3110b3ab4d3c79d32aade8da6a840003147615e2b59db90ea8d29aedc9f995b2a99dfa8106f330914b6f53f058c) ::
  (true, 0xe339a9c80ac5353dd812b21bd04755c674d4df5345a0022d59879ac6fe97e3f049f27431ab559fa30ff2d8e3fc9909c055b5279c7e8afb3d7b5c7f08d5be58b7) ::
  (false, 0x3aa86a2c4c75ee515f948cc59681be472b73e14d5ca887d89b9da2c554ea5d8a347eb7f204866a3f2df0c67b7a140e68e9ba313fec166525a0b70b8e74dd2a60) ::
  (true, 0x1642508f8c004ed7d7da0595339c0f70af470753b7eaca124e9eb57de992715fc05afb1999d271d08a3ef99e8f628c1a2f34c88a07fd5a34116c85f13d838307) ::
  (false, 0x213d89f61b497de7603d0cf4402368ff099a7a5c3ee5838135f325c5c659ff503d484afc90ccd247e82bdaeb336e7ce7704c610efe4329d816c34e3831219f7b) ::
  (true, 0x362349bb16087394f3dcc9cb2b59665102b11fcc3b20938565183ed8d2e25ab0574aa4a97608cde6c83764d634c2c15e28cfbb86fe638bf7ed0340a8ae4208eb) ::
  (true, 0x2e40ddc6e32677cf9ed1494b282b4a5cf4b29b1f09dafb05cb9bad2085638dcfbdda444b7f11b9dcbf0c16dda3a531509edc40a225c8255da58945bdd62ca06a) ::
  (true, 0x432db526a51ded398eaaa69f0ea9bcf7f8b96d4c8a631b577e822358656a3dd576d61cf2379100ddf5c316e7284b346b262e322855f8d9a4c86af2373d0e11) ::
  (true, 0x1747e9120ed65d5c74700fbc1725a4f021c6f504330936e95c08f62f65324d1c85615d07741df1cf652f68be8d5e208595047d7810505bb5496b1c03abbeb6e8b) ::
  (false, 0xfe57060dc79ad16f9a39dc03a95b9321c1276d54c73e283077fa6b70ba2cca1a2adcf194822277cebe2fbd4bed65e8030ac02e549942a98611f87712631639a) ::
  (false, 0x7a4582b5a17e00136a73f7a0811c004532d2e6e7734a93ed9d773b2157641a9db916bb6e60bd0b490d5dd03276815ce670ef3b7bb3d1c56fc6bf6b9da2c80b50) ::
  (false, 0x1dde7479e933c6e3cc4d639e40c836f9ddc85428d0f55eb7b66e34d14e82b29f781c695018d24e61476a96c8d60136e59a3278864718aa18f02a23a254ec6bbd) ::
  (false, 0x1114de3f2e588a9d7499a0f2b411ed924e72e9e573c4f3307099544ab633692751429c2dc5534aecff6b66f296f973e1f8ed6a6b825e31c0b2db585df32869d0) ::
  (true, 0x3322f625bdcd324e6735f652e2d61fa11ddc0562e7f9d64f5534398ca8f76fd5f2e4f824f07644958c6fd3c06eeff0c040746b5e43d2746b6c5206d0de4dd2f0) ::
  (false, 0xb551d3ade01ce3402cadc6cca178905517ca91f436efac95849fcf98fe587c744c0bf4d1d8b8ad21650e1e3719a56c8f33f850ba66b782ad5af791083a8a7aff) ::
  (true, 0x1cf140a1cb6ab18d935d78b1ca438f7bee82dd295a4ddc044cf57e35788ebb724a5d3b4edd6ea2fcb32267054990bdcab4c0f3c75c6470a028e312fd4a2250f1) ::
  (true, 0x17d955718a73f84e190c4485e6d78fd0c0cd75cbc15524c6b2f1946caa898996774148134f5312a767913c914d9d062e6e19ffc660f24a3a61551142f1226462d) ::
  (false, 0x13cf27d56568606684e905f75016e5fa225bdd7f1603b80b6e9c4e9fdfcc270d29e081f030f2d2ad73788c83235fea1835dcc37b9a66a64459297de7eb4758af) ::
  (false, 0x85fb6b853ba8b147e00a16d888316cbc6d4665c548e4a8a2bf62021c0c93afb74ae570f64111e03f3744d49bd7f803e986365ae1e0d7982f1b2e21fd80932300) ::
  (false, 0x10d32ba95e7a1386f944a80a1ae6e55341ac843c285b2d3afe85bedaffd718fcab67a6688e4493a8ad4a109478c9cb48624cfdf309b5f9cca29ca28e786452b) ::
  (false, 0x8c29cb4c19c8a8b61adaad440e93cf80b1c7051a9ade6ed708a772c6bfbb4d8e88370fb841640a9150be833e3da72b4aa4935ae7288cb48d72e9a45a5a95fcfd) ::
  (false, 0x4b18517ceb01325d7a9bd86b9d28ca0c00f91cf669b6714a774ab6ed9d934aa074c3b89b6a7e118ef7dde9030a8c0b5fd76ddc49e67a0b883ec7f07ce0af85f6) ::
  (false, 0xcffc60c52beb02938c70e4d61bbdfaabc8c49703e854dbcd63fb022f3d5d16f6e1d041b7bda58f9ecd37764dc9d5a3458d40107546ccf39d7e6095c813f3538) ::
  (false, 0x107b754b1f450e8824acf31a00e09437640d8a2a1a3fa7e88386adc61ff960cc95dabb006431901ad00c7386f4d11032d67906130302ae23d30b0cfcaf469d30) ::
  (true, 0x1c51d4e59a741451040a5b64c7a90bfa7bbcf3e2f68f7b18d7fd9b6e715c3b70dacc3f1de45cff1b48abdb0f7b834794baa01225aadb6a5688ff9889bf0f8097) ::
  (false, 0x401b7c4fef19a5dd87138ba258f111defa5f0fb38bdc647497924fc297f4641eb31d1b7be26b79a261bdd0c8dcaa00b9f1e179bef20f63a826d4fbd22df2995) ::
  (true, 0x70970108cc7dff92b595fa519a006fabab64fd5c324d566abede28aa873d920426a21f51b4c80e613f750c714c7fddb8a8a627c3297b593d8c4bf9d55c97d692) ::
  (true, 0x8a5f4fb174fea61e86eb66a60b4b8322dd3aeccd911c87737d5883f2c5412eae12ce9bd1d9e8977e396555391c41a004386663d91cbb6be33c276b399e5f6cce) ::
  (false, 0x753dc0f53a315f4ca1b7608edfb1dbeac535133d67bb95304433a11e19cd5c399e21c2231ce899583c281249f32e61ba27b967fb1469a84f4267230282f5835a) ::
  (true, 0x100d3c0be933881ebd24d92c78575c7d282fd77e9923386c3b7db10fcc990d801485cc044132ada7547a2bc8fec79f1caf2bff8231217e0ecd725e11de0698870) ::
  (false, 0xa4ac8c5aa136809f24129051ffbf33333557d032c2d4116834e9e29a0feaea7ca145f45174bafa17eb0393fc9fc3ba1ef56cd00904c1e8ba2e9f05541660cc) ::
  (true, 0x52514700e0da54a70d1a8474a45e334c3f3a5bfc1590e4359ea8e90c3e7eac33dff1df58773fcb167dae12887fd330bd86688d40899cda5c129bff124f7398ce) ::
  (false, 0x65fb6701cdb9be6f85df7e18a598257da861797b03f755ea004450175ca46b4a27d4f1b4424bf59bfa4880a51a7e6d566a1b74501900c80be11b0c16f837192e) ::
  (false, 0xc268601b7a672446e55285ba49d3e9101a59b86060bb941ca118fad28e34621acbb16ff6e94aef832584dc2c08e1d32ee31a881aeea9cf99b57ada757b5ac16) ::
  (false, 0x27d9b5b3d722154bb62c865882b21d1c8dacab89d770d5dffb2ef3409ebd01c7c8f938c18aab345262050cdfe4ab003f09dc8fc109ec5e7f5a55696d217be834) ::
  (true, 0x1f4698f0cff7e44efd0d45f2a3332d7aca4b68ae76011211fcd6ce8300b00986021cfb4cbe90d323b9dcd03d6cb9e688e85f2547a0d1c2028d7ca198c15454c7) ::
  (false, 0x195912c9bf2ba3195d72e9138cc33f26b08e23ef5f21eb5fcc6f3f6f2560d5adf2bc9e86aeb40fee1d5e131982fb1d78eba54a064a2adb3b1d980cd7012d5f6f) ::
  (true, 0x1010209a57822ee90bce7b57f89f3b7ae0be405bb042f6a874a989de467c27b8d9d0dc35d25ecd38d87a2577f399b0fafe89686d5bfcbb74b91adb83abe9ec3f5) ::
  (false, 0x21df027d2385f4a6324d4069d2a3ed389336c22d6dba2b9a66d08525d4dbbf095cec6193a6714e0f501117f27c1a104f783c1c8ebf733c782cf50b4944a9474) ::
  (false, 0x32e1053bfd5056c38456b1ae75a2b149a215830cdcfb30a221a91ec627aecd973651c7ba36fe1880351ce7a3490957a5eff42a997bd01e60033f0a3a31c7149) ::
  (false, 0x95bc9af4cfacda896f2911e534c64ffe5348241f0dd18b836c0c1c4f26a3a48ede43eb2095006bb3ad1e3e270ee8dc1edd10730404884692f7d98979ede89837) ::
  (true, 0x3cc1f399a9cea4c1f239664270e769bae69c0b53e9d253bbfda426ab4be7b54662ffdbdd6c4d6a46ca589d22bdbecba53610368b7bf0fcc2ceef8c860e0a62a7) ::
  (false, 0x65936e77529fba425d811070f7ac696a772f0bc1317c283c74f6b476b19b8684e81dcb2938834c1abc41fd2d190b9f19090cc89b0b64d16955ae0a808e732be5) ::
  (true, 0x1b881a8eb4a44299cc17d27382aa42b3f04c8cffd8cacdd07f642a5c7ddd79e361dba13dd18f96dc09675cde5474b52843251969680603141314067a768c769d) ::
  (false, 0x7ffa4af57140f11a1c7d5e72cd7578aadd48ddc915584fa56da35c9f940c927b531d25e5f4fddaa538349bcd81999b6528a688ba3d91ba5dac517c67c6d6bae6) ::
  (false, 0x73b20306d2aa681fc96ab807c18722bcfe0e062a963a4646243fc97480a4fb9a8b4ef0f217b3184ec465b6c5e40e55e497d25694f9e6b06a3592d0ab2dc1cba) ::
  (true, 0x696962c22c234a7fa9b1b3536edef9de74b29c28735d3041c1b3281f99daedfb8b82224c88cb48f9b31c110e2c1c90ddab563c2d80beb18b53e73b2854915253) ::
  (false, 0xc12fc260896a75f55131305d5c2a77c1c210b744570e039496f6d7db6465723b25712a351190527bb5c9326601f5a4d6a92bd9092b8ee6d7c7b5d5c390a182f1) ::
  (true, 0x9da635a02169d5e832278ce5ef4490cda3d06ec2b64c9751de02f29d6287da7f94382b9d1d9a37159d180fbd854b4f89f596c62a26bf2f9e727ded446786a6fc) ::
  (false, 0x800593111d0280eb00d17b726ad9af90389c4d21c314f074641987aa17871f62cc4f625d3ce07b0dca95791f3751fd76441273ee99ae6b8ce0c52520594fc7d) ::
  (true, 0xce0459448e4ba40eaf6105b7a9936b3beb98d4d0f0faface7ae8b3f4e3fbd99b6085550e6fe8ade2e298e0dfd5d49fe7dcac4ee7aa71b08f39d016c617caad08) ::
  (true, 0x5a743762abb667a8aa5bb89d8810ea1d16824ca67aef8b295156fe4c5c0a816dcc24d58521e6819baa3172a0d7159990d2ec075d76c57f23d165b66fabfd42c8) ::
  (false, 0x4bcd38a2e8cd3396283f779ce5e119d04dba252c17b32c3141433847586a7771d980762584c47c4888fe94842a2f5cee6707c91fa064a8fd0a9276c12f7545fd) ::
  (true, 0x2fef826bd7f10cbb0340b91f5172d533eef5948715a3245e209020897167114bd86ec94041248ab87f52ff7ee2c4be45b561c6a61dbdabd43fb2d429afc2d7c2) ::
  (false, 0x3e17e11e307c2c2b85668cc147a3ba12c7b83d9e7ba522260c16e20fa4478143109a0a45d83b0894c8a7736b98e973592bd49e6ab348d55ae56bef7ddb115d14) ::
  (true, 0x152a52908366c1f5baacccb4a490bc93bc1b69c8cb5be34c3a1ebcf0a2eae5e266bcdf044f9720fd9709cd072f6df0ad6304332069192abdbbb3b201e3987033a) ::
  (true, 0x6f6bd7d37bec638481bf22379b73025b5d0fde182c372edde25f9a6f8da2ff80333536d177fbe78dd0e70fda60afc62e73111e2b54b15c02b47520b420dcdde3) ::
  (false, 0x2f04943e78ab77bcaae02db029b628ef2a4be15ec41a5b97570f9a7b72f7721e531a2d7f3249851f846f1e5fc21f5de1fbc15a41b0ae6930b7703b7ce4aaff35) ::
  (false, 0x291d2193af00caf811a702de90882d5584b25121a84bf651f9c4dd1f93329938a884b68660d6f022b2e50dcfedb37199d3f93051e4094ecc4cab4dbc988043db) ::
  (false, 0x4ab413db5fad9c9c7dafd7187174ca54efceb552427dffc5ef0825480b7fff862ae583dee00ec1cdf34de10f5917344482fb095e62e6c50a353d8e3d0eeee) ::
  (false, 0x3bd2ac7997d3c872914f3ed31a2732bd8cb076041693b12830c03d807b1ae1406d8f5267ccc80b66251bdc9c4f4540e11a04c9a7f4455b5bdab5c32b716e53bd) ::
  (false, 0xc357e16c01b2371dbfd636402453f2c8a46bdc9ac20cd3d82d0c73bfb2212b6e69e148b805fd8bd9fabcf0c69cdef98c7949dc698ecfe1bb615dbcf6c6f155) ::
  (true, 0x524253d5ef714739d4d9ba4b7ddcac976eb80a5d82a7c1da553ee397a8f6a09255a8f99d0320099e3d8d1ffc537a358347571b0f5872e2c5de1ec2f9bf756c14) ::
  (false, 0x4bf1f5736cf9ba95230c00870e325218394a3b334b0d5d097191c3fc0d664a6dd7d441f23b90fd396f904b751cd8de733e388629cd5f3b2c3fb3e7162cc4315c) ::
  (false, 0x6789d96b7e458c4678a70d0f62413e891cd361f1c44ef37217145ab5a1e15ea0c84cc32130ab80130403457d67e0aaec4ceac4f3037aa12cd2fb68955bc6fec9) ::
  (true, 0xbb5fa52107bcfb35fe06a41742d3b5b0a4837d541541d6c19a40e9cf1fd7bf91d544580afb32666830f558b9fb53dcc59fae9d29adc95287b835f4b58629895a) ::
  (false, 0x54eb4f8417a1c328a3f14b7fb45e30e23df3daa35838e03b93ada0e5c97bfbd123482408436cee9df39051f7022a507b6f58c2bc583a166b0a5e3f0fd505d988) ::
  (true, 0x7f9c497e3cc3ff946471fa3dd1de5d6b82be3de01c60dfe5b703ad4cbfa64a16f49869028cbd0759094c260e9494f029d525152d21dc3f74a1ba4620bcb65e1) ::
  (false, 0xb38b57ce04fbbf6e81f3d066d9099281f82037e56c8f014115e1ed7a17d75044b87543da2def62ebded6b7c78a9456ea6f3a9813650eb0ca08462cc5b931d584) ::
  (true, 0x32e52905befadd9f64fe564292d990dc1a05ff4586ecb9d796eda3f5a54d2064bf7107527ad105b80e1475b2fca31657f976579b24c119041744abdef3203eb) ::
  (true, 0x1aecd87aea22f9c8bc9d05f5dd64f9d8d0df4feff636b7e261e964c33183946c8543aef70516ace80faf21bc1e9b2c5985e6c0d7cd3af50a5faf6c911234540) ::
  (true, 0x58114c1d884e2820397c386b1e65e9f897e1769623a5a87c7e71f2ed90666569ef3c4bcd859de6a9c1189c6979d713eea9b4ba8a3597bc022a754ffb0abd983a) ::
  (false, 0x24dad995a5c6b9afbcc11048e950606101415f861504f4059e48147891ffcc72f0282447acb8b52b3e6493049ccd931101ec09fe265d0eddc62c004a7eff5c68) ::
  (true, 0x5cde8cb2dc5ab1b9edca7ada8b285360f2a761fa3044fe363aec990088cebfdb0ed847d80956e2e818e3f71fd104e1ae1b65461c400e6396eda4b3b9acde37a5) ::
  (false, 0x8e2f39cec79922f40c1667320902e90f00c5d5344d7eda2e766350806f8e1b907f06b1420cb7b43eb436be6078ba9946110c0222d14cfab484c5b78551b97) ::
  (false, 0x619b7e86b3e359fb322b924239408cdd275512619ec762321a1bbd1a91570fc0b7d578e13cf897393a3640b4c047ac2f243ca1886ea73a65d42f917bf1700c43) ::
  (false, 0x7b8cf497d780e34bf31fdfdf9813883c65910c793f08ccf423c0ea1f7534827f993614c872acccaa680c47f058c156f81b9ba23a36b012c9e926b8c0846453e8) ::
  (false, 0x783f33714273e0f12b834f7699d4258a84be3877f600939d19101f8450a0715864bd7a71ba03716efd738ca3f2cd3bf85c8115a6ccf7f29001746fe17a4e1229) ::
  (true, 0x361251dc7513b389143658c33e3454019923d965894440f114c99b0e6cc7eaf3b9250a9409569a0176ee91e2071c82912796244bc8a779f2e60a0445bc3f9f6a) ::
  (true, 0x13aa49b0a22b96f5b07718d731ff327cf0d4c313aa4dc137c6fbe305edb5a84289024741994419794309052546dac34ef93c283420287622a7b991edea5a8c2) ::
  (true, 0xe8a7cdf1dbd8f1bb9b2f912954fddc8fbfed4fc17304d7b0364498e0cb0e0fbe9f554ecc7e23be36837f66563a4de7ca0c501c9b00f35e4bce4d736947d3852b) ::
  (true, 0x1ba8f42d5e10bf0783d6d1b1cd638334a7f31553a3fcc8dc8f94de75568142a3e88e4995e272c28b0cdb186fed3e0e1064cfc27e7388abdbb81f26f53b35cfac) ::
  (true, 0x3d2ee76cc1a3e13719b48fdff69b3134153ee69dc0f159f5f97ced65b61640ef0eba3bb4a236b5bb506def9d1db447886e55a17b146e9b29d283b727a34931e0) ::
  (true, 0x25d6b849d7b4844f20112b942d5e18125b53b70412566fb021d173d1da0f038bab2942a583c2cc0b5b32ce8d86a16ce6f42c4ce9def6d48bb45f9b1a8cc1ab13) ::
  (false, 0x1518f3795754e6dfd4ab5a6fdbf5f70a45d4e3eb76b9a6d0f7c0d920659895ccbc9a44f5493396f364429dcb93ba63658ae428b37a486eac7ddad09e788c849f) ::
  (true, 0x12b4649bf080bb27985faaf94893db05c2b81dbb4678d93d5237bee7c0ed095b8811fb4facc095f1afbd7fe7a019d7a704dfe76b6e6cfa66f6d84079b22b02d9a) ::
  (false, 0x19b635b0fad600c6ac44ad0ead6cf93bab028ce7ebd225a1e08d20d05fcbc8709f3a361b57278cbfcf06c8033c9782655f547eaa9861b5269c866a2f2965d7c) ::
  (false, 0x5bcd8d34be5964363618edf4c34396111a9df536da6224651c42995f29630b2181cb18fa6fd974c3f6a500a16446bb687447eaf8f9139e60f53d2cb920304456) ::
  (false, 0x96213116af93e1ee3f112a3145cd2dc96262105567eb4568f721e720460fa7d7eec2d29fe3f09c2b9f5c3c9dd4cbf6535d6e7f43a3ae2dd44949afffab5f758a) ::
  (false, 0x260704b8423c37d6981f677e1ae2cba0ad4a30eeb2ddfdb60320e969b50f792eedc99eb38ed1c10c914d02c710eabb13fb2dd96ed47b6a559b4ccebf36cbf68c) ::
  (true, 0xa351e00c96761a858840a37a26326fc3e05c230beb3a2a8501f36e0e0eb769286de9a71aca7d5166d482ce8b25de8bb95a0eb97585f503133fe9607108dc236e) ::
  (false, 0x3a4da7619c51786a73324813370fba0cc6a0ea5bfe8c9d83264f47fecbe3b8346862d5d0509b4f2e5ec83a78203386dae5e793fe5a4bc2daec024a30a9398376) ::
  (false, 0x8a17a7406c6df083058e9022ed9e8dbbe9656e6af245885d1a7bd62bab0d46f5fc7885e5dd6620e8ea1877babccfda9fcc67a6b10f275e0e66dd8ff31c643f6) ::
  (false, 0x827ce113e581d528000b4529e9f07d4b82efa5e26732bb05a0ae794fd27054e6c5d1833e7cf1109aa0c6ae024436d1ab5f16e0fb9ebb376debf76a89ba40e66) ::
  (false, 0xc5806dae495a3c5497fdbff80dcc5629674b0915c7cb6e4ed4376ebd0eac5f69def90407356bca1a0ba2efed16519e9ca1eb843e97f82fdc7bc3b44585c6de7) ::
  (true, 0x7ee2c5f7f87da82ff82706e9e9c183721360bfd87e6cefda8d8796a8ef23eba5d1635d8cfa474e8b99950002ea76a4e852bc319a5c909edebbc35c9cfc077ad3) ::
  (true, 0x6e2aa5fd926da77fdce484bd29c43e74a07dee7a4a3498d18080c34e63feaf754fe3a7ff55dc9830f4b788e85b144a60ae35cc05c883b63d5cfd32046db5aa1b) ::
  (false, 0x12182946b5ce2908caf67f1c123bf611660d67fed8d76f30ddc4012d737cfeeec42c2c113501c7aa48ae938a0098825c3e63fc18d3edce2ab653c389bbd40e1) ::
  (false, 0x86fea81ae91b57a4a9461ea81f0fa65ccd2e562c03dbe42d3cec47dff63dffda858a30a05c9ec15b0e689bb88727a5af94d57af47d686030ee1319194bb15afe) ::
  (false, 0x35e1647d527e1f572580509a1a502467d87a9310f0afb18aac505454b6bc4fa49308de0d6675c7110bbb8d8a245c8e0b4a21fb874d6db2db09e25df3d9c407d7) ::
  (false, 0xfdfc224891c87341af1f7f61361cb9920d9f21582677a6f777d0b40ebef4992f091de7bbd4e6ef2afde982e00ea35605511bc0d40df2793639a2067c2eaa9e) ::
  (false, 0xba5a5a3b4b96fe5c2a9eeac56b5711bcb6e9ca8402b705715e7bc23a7420131fdec26e07f45a34b5295e39762e3c2df4ea899a3aea44a2d91c25dfdd6d23d503) ::
  (false, 0xda27adc5330a4fa5bccd99a3b71dec3881084cc834dafa5a280763d19b25266ffbef11b1464aaeeb03808feab399c33d0caa6e7d7e21448609123691c12534d) ::
  (true, 0x2f33a441cc49d02c60d14b4e918f7fe788f495a49df90c5a8597b9a001bfb9f7ce805bada320594997011cc22c05a10662cb0449679741f91e9be5b78d66e913) ::
  (true, 0x17f004177f6a18cc6fac2c301e912e2b37e2953b9bf48097c3f45df97ed493e1348e63dcf4924bbeb065dfb19426c3ac119c67fd14eaaeb733d49c6d12fd44f9b) ::
  (false, 0x343c59eeea665f6983b5a844946431392669cedbf797869fdf2749a6e9a342bafa818699212047a6d8f5ff94246c83a532fc746780c6bc0e075c45c995ef6087) ::
  (false, 0x8d1d768ab5ba6e5128241c67b47f1ab99191f8bd832ba8cef67660fc92cec42f325c0e768f2a7b986c484196516f79b7f7b49399668527c80beec6f23e847fe) ::
  (false, 0x58b57c1de0d0d1d5908165d2348bf11923f923166dbf1aaf7af2e31d303be2088eac6e7034fde0a254c5cc67f954da6e711dc06745f5bd0628c65ed361b2f69c) ::
  (true, 0x1c7f54ba9ca093d89bd06391c2ea452ab906c16ff59e2cbccbd228c6afae21094a9cd58ef630b28d71827a55806d83b06c83a04a8a6310c9262d1b2fd7926296) ::
  (true, 0xc906a0ef172ad47b28763aa3243dfa294b8cd55fc5a6d53519a5300b558ff161f77925af7ff40caf3675507775385dc7ef2c9c0f73e74b6c0cd8ca74318115d3) ::
  (true, 0x71267db113982000fe6100eb6212a294fecdb86e69a65d115a67e1c9bfd5f6b18310174026f525b29e6f07a3958bef158402146dd51846a4d565b0696cb5a869) ::
  (true, 0x23213e73d0ac2fa0e74dde8dd01db8dc08444fdd7bc36f8b3a1f896fd53ff76c0b2f65101519210c5dba9e8839a523da4e79c45453a81d5b52f0e26a675739fc) ::
  (false, 0xf754475dd15f25263022dbf3809ef7bbd2202714b7dcfcdf64ecb6a87c0d68eec1cb424410d0b14ca78dc40c356e3e79130f47b1433298c501d3526fe39d69) ::
  (false, 0x181dd51f253361245b3666cf7c725c9a835fac540a7bf617f7871613ba51192842d021e472454f16e89d0d92ba802fa270b071904b8e97e77c4eba9a4dbe6de) ::
  (true, 0x39b6415d5313d51e3769bfedbd1f4cae107bb709d57568934db8e3d540508ec3a47791f7ba0f84714a4f67441ec60a59de3ad8f6bddf7d03991abf19dadd4111) ::
  (false, 0xb95d4a619e562aae789697a2c46f9ae63a8b1de9439ababf3f1df657a42620970c6c0fe236582dd730464895efbe30ff63871bbe51f294eb15f7b2495d9a9c81) ::
  (true, 0x2a7313482e5e914ff04ca6d4a5415620872e522790f83b865252cf8700b2370e046df73b8b49a2da672089b0e8c684758b265607da229f128a8f3f698536b293) ::
  (false, 0x279da7b7293ed8e48b93dbe9b4323b2903dde74b132caa8d15fb5bfad0dc60935db6b09979d3fb5c197ef2b9d6b342a8139c7c5b3c17b3f321d0152a8c158f4) ::
  (true, 0x692c7a60c416a361565583fa84e8a36f1b6e3293b08babe2585439a06fa01fc28ad1bf65b1eb01e20920bdc7ba3c47e2a1e98ee81f7815c132268824c77f9013) ::
  (false, 0x807ad3e483e5086b51c416e2334922ce1ee0e6a3f62db4e694e4ae13905099b752cd63608c1aeb86a81cc397069efca8c600e7c86140b50c67409c9ee24922) ::
  (true, 0xa2d96b71a14f32b2dc7969ed4109169ce82b0780d244c22f081be4213154368b950e7d28034b5978eb20eb7be3fe4bb850aa6e84b2212b0dd10f3edd13624339) ::
  (true, 0x1f66fc11c24ae09169526c77853e61b95cd7603014fe4bd9ee4f310370dfad1bd65258014169908433ccec4c200337703879a64d7dae39a92f28e8f72abb089a) ::
  (true, 0x14ab7afbca00d389512f7224c2a11162e848adf7cfa5cbb51169b1a9b452314e96273d8a4cf0a4014b2663bea9b2b52bc76d2d47297e8827b66802614b8c60d8c) ::
  (false, 0x5588d443bf73bce83c5f9e1274e501434a21761a98183f9187926b9e5f385ab3dd87578caaac2151e6632e54fdb59144c0ece5f8d3eb52107da45072ad79be1e) ::
  (true, 0x1e343e7567ba09d3a8a6a3396ceaf544e74003154fe6a0c1cd001505a2198dfc4b0baf4fc0aafb0e00b0c221de1a119f3f1199428314a8e05c91d2622bf26ab6) ::
  (false, 0x517704a9453c9eebeacf10e0eda7b6ec7b8ee3c58c76da9ba07146b007b2efcd488614db2b249782e318826e273fbd2025053dd35eb91ebe33ac1366d767354) ::
  (true, 0xd605aa6618d3138e5721fb2898c0365e079906409305c3e4207cd3690d3400f308d409b30be486ccb971be3d6f0c7cd18a2adf28d1cebde22a899007f85b2cc4) ::
  (true, 0xaa1718fff8c8018399b8b8d1ebb02088c69b847750ed116bcc2ef4abb6df7038e451c52655511c06fed805c4b4f446ff46071f253ce8f31ba612ddf2b40b3c7c) ::
  (false, 0x8a0724a8a62b2b97f39a0bcb89d6d8be33814a864a501b5199dccb98e454f21b3f3704bb5ae3b4eb9048c4fbdf4b5abd4f4aa2b691285511c2c4d8a9abf62ae) ::
  (true, 0x1457277c7d818f1f3c30dc649955806ed7398b7320b438fabe9716b34d0cef63929069299aa0bf7a7af80b62a842ab54eb7cbc8914bfa39333d0252f7454f7934) ::
  (true, 0x15102ece19bee19fd6cd9f6ae416142bb26040c6168d2473563c174a28a84ec29dba738991c633f1846aa4e35a7aacbb40bb5a82b7db7c8f6016e2bab2624318b) ::
  (true, 0x2304d8a2417f8e8d8def5f2fad861a775922fa071151404d40c341988e803e67ac8ffd4c4238a9b8fe1edb5eb23d202b7f6663ed9b27948a4d8e5acb09174363) ::
  (false, 0xa9e904e8d3858438e6682571f012bf500865110f52249cb6c013ad1faa8bbbb71f0c4683024472d61df677007cd6c8a0187b1e24c8a0ac78915374af5127200) ::
  (false, 0x3e34b09f8c5072f3c46015318338883b7a3a79cf0613ea3c2f25ce62de36828aeb0c123d16b5fbf9a4aa06efc1a79edf85d255db6e3a24df18f9365a2306530f) ::
  (true, 0x10ef047a754e3c913bdbb7871ff7d507d29342b95af454a519bca709a6b905545bdea52491c4b9d68f20633ce06533ccae231a9a0ac334fa0f486c3d30c0ccc8b) ::
  (true, 0x789a4930893abd5b9cb82d28dab8ed0eae80d8c7e130d8968ad6ae369efaea24df97f2c43f4e88c1721007dfb41e15eb5852e44339a2d37a9c568babb04e1a60) ::
  (false, 0x5a7deff98e7226cee1b478d4e8210e33fc8b707bac470cd3823f1dd0dbd31953d6feedbd8d58e9e42d887f6ee5154e683895170661629e20a75bc82e42296312) ::
  (true, 0x87280f8d0a986efeb2ef1542fd8ce1394e8266b11e4d039769c05f98aec91ddcf25fc6ecc84cce57b94fcd06c445a382f37bcbac14dbc89b74d2768f674e0d37) ::
  (true, 0x63b0352aba5e5260e1b265409a3a3c47c2dd750a77128fd355db4d234a92d228a891104919e80611078c8b788940425204fcfce28d97703d470d346dd34cf9e5) ::
  (false, 0x4a75f48712b21d747055417f68b3c89ca1e963f87fd09fff1e125d3d0695ff66bb237e190e8741a0b15a01a40c731e909b308a767c089eb15ecd927ae9f6aca) ::
  (true, 0x121b1db1931a1255860bc625f62a08d4c5a7fca2126239296927e7cb5fd6010af62b53223a1fc54c769ca66870b2a004b663b706460d75e1deddccfdeeec8da36) ::
  (true, 0x76f3c6f3882d658f58cc328d1d0a0b15a43b2e6643aa47c0d066e7b1fcc2b8c83224ad2078d0b777b2044f56b213bd3ce78ab722d05096660720ad4cd770ee21) ::
  (false, 0x1c9a04fcbad9b068d1c80d63ee9ab987bfbd2b88af2df10a43c0f68de4c0727cb6fdedca2d70a9ccb85219cc7d029121031286cf6799617a5d57c08d3d0a7bb) ::
  (true, 0x11fa6970e2d7cd37d574fd4d89d49f2875e3026ac0e716343e2cf297e327cf1634895b11d8dd3fba40358cacb982eec58a04a651e61b6eca777a790fdadf32286) ::
  (true, 0xd326cc330e04d295e91844edf492233ba60c8fc9de42ff10cc9b1052815b204f2b9cc04f04ba1aae117fe0d01d39c14b36d77c904664e5c6b6bbd0f6c40ab0c5) ::
  (true, 0x56efbe5793a4b8b8b28b93fb9e80c282b1a2f01062245856893a67ded0675a289d94e44a8de4723e0cf20efd44f431eec1a7a76e0a239fa1939b269ffe8b8ca7) ::
  (true, 0x900718536464c0928a812d3c654874a14a16dae262edffc303e818c8cfda1753cefc5cd2bdcca4a8360c1b74524d2563e235183fcec1a45361cb33edd4970279) ::
  (true, 0x3a5c4869b7ac0ab5390e6b4ac4ee1b4975563c0293108dded0ee0bc19fb0100b821aa2ea968232013d89f3a69b52399aba9211253a27ec06ac060d7f05a3fddf) ::
  (false, 0x6ef053ae8164b40f95614c3c507dc36eb17a6e3a7655197228443a78b4415e6b9acbdefbfb219c4b549425392d416bcf266e4c8a7bd355a179a133cb952582db) ::
  (false, 0xa7f39d0fb49d2b6a32019fb5f2ef76c1be6575ffbe6dd342f28961a62b2a6e03aa0331a31ce3ffa24d020a2d806538a643616a08638cecc9fb1674870b86dab3) ::
  (false, 0x64d4289e123efe27daed4087b380da6131f95a1fac88b7e05e22d99551e94966a77d7dc8d5907d365f256907739ced859e4182f718245fc2a6dd9611660a6373) ::
  (false, 0x1acb8cbbb61d9b5d2f00b8b0043b18e20b094e1d13ce9c4929dc14955ba0e31b2a11b229649b60f21eb3e21a14b81367dd87def0bb7cfab4c4ec62eb12b54c6b) ::
  (true, 0xeec0f25ed1a56a9c22be3a4563b7269d7c31ed0575a3e03cb5d7c918c9a8a470426db3078aa51e30924a8ae8a982edbaa572f19a78cfc51f0e631b0312edfe6) ::
  (true, 0x8a523db86c5f64d26374d84963ac84ac8bf748c594f8fad66844fc47cc75d856f5eb71442e71911032ee45e2a17e5ef601b4125dd039d9222967d821b35bc2e) ::
  (true, 0x4fdffc2ea5b1ce085bc49716b3e3d23630df5e870d4d520085aab6dbb482aacab41ba8e22094d45665e1a6bd552319cfec6209195f3a001230ac77dea544b2d5) ::
  (true, 0x15a77c4361cc1dfab66fbab246a2add17eb8ddb3cda3fd2ceac6b206ebc4bffd3b8d6e59ac48691ee9b2dd6539e8afd68abb1ec3c1f8d6c2125c9dc18e36b18a9) ::
  (false, 0x8d7ac076721391f8a1b5b7fe2c2003ff33a525862aa28509cb215ee874c6996e857dec7d23ed60cc54494fb6a0355691038b903f171db89fe6992f7f20f1dc38) ::
  (true, 0x32bd503b914a1ae28bcea112327bd2659c4cbb503b5a5cac4f7f5bf780000a2eac56b0c4cf6301ee53b77b11aaa195282331c3d722641b3686a0642434642a76) ::
  (true, 0x6437a0b03c450167ee4addd27de8c3997a502c18ee74cdc20a9e83ad71c3bf5f28f7fd92fe9388f8ccf4024285f6ca5bc31b6811b1b13ee09ef74d623867136e) ::
  (false, 0x16f3172e7c19b44b7a9089e0b91879a341376eb521084f09862ec3d8a43fd4e44a5b924460ee22b28e508f80f170162d39e4cf19a9bd9c785ae365ad4ae0afa) ::
  (false, 0x8183974a168cb1087dd9c91b79f687a2e9b1f19fe6447e01f65accae078a7654d2d58b37c0d3f099559f059110b68964e85dabf0f660d5e7e2fd8da8bea85376) ::
  (true, 0xbd17770e18e16f9cda422f44b711aee283bf4be23437f2c730b6372119b289ace2cc380155cd2913634317b847e0158d740cc9d5566a792f74d20b94dbcdf911) ::
  (false, 0xa3929d2e9382d94bda7cd96f5f701fe035d6f4cd913c33d4ae77ae82f33d9de41b54ba89bd525f48666411a790e9393b783278a9f1ef3be6f2afa10a138b7fb7) ::
  (false, 0x4c40695aa8be4c97f30f59851a93fe9dc62415efa4ecb72ec512aa7c109f2a9e655f48b1f7cd07a7800d1e1b0798a7222eea97cb531f42481ef00cf3ebeb050e) ::
  (true, 0xc8f1e4277fd062a917761e2f8e44fd486de8c14df8519f0a3d945f6005baf5dd3f9251a2564c8dc50b25583c578f4311da86a49935370bc64c17618708d94043) ::
  (true, 0x6be8a3878b094e09d3d728bc549ef3ead643ec9988406226141e9efd61e1ba1c905df9aca75861993717461729f719690e68b8cde184405e1f70f059cc94b49f) ::
  (false, 0x3d03e17a8d52496daa17db978b95589aa4af5f551206d57ddacdc3e5f1794264d7964e828461563f2a8a05f1c8bb179e05b42601978f2bee1d4b6cc66584a3c9) ::
  (false, 0x5744fdee89dc6f290d15eef829d81cc3817393babf7e5a879b7985d07703c6647c7e33789c5f8f1b0ebc971c425b1b62b5c4bc63e4a83bbdce7fd3c67dc881d5) ::
  (false, 0x2140a1471338ccd8671232474aed92f0fa1ea49310623f8b1ad45362ae072adcd0b3a875f547d65a6dcc7a7a7c7edb43e44e821720e5ea525f799db442972655) ::
  (false, 0x148d41831a483759102ad5cc50ef4e0ec321724a8da3c34479d64043450f339c8cc490ea558d379de0231ace4f42076e35c4cd2649a5bbc1c0646f691301c971) ::
  (false, 0x34c5de0a3e81e8537bf37c4ff4b522e49afa04b9d0c92a7ab4b7cffe4f2da04ce0c05e367985582a845b8662c61a56f90b7d8ba3920246cfb2a6997ae29c1de2) ::
  (true, 0x11eff5608ad1c30df87f01d30929072783e758858180de881914fa1ab954a1b39cc0ec19a1151def341a485d52e128dcf4ddc640238ee08bfc374cb3338e559b0) ::
  (false, 0x8d429f9451684d5f399ab9db7656033513ff94c7230be3fb7453c6a3a09d7481736769a44949fcb25a0f61804ad63c86e982a6d88e0adfc316538c9e4d88d517) ::
  (true, 0xe82f60f6d7e7a85e86355dba54adf60f19f4245bbb7a42a6ab86d3e50b34ce616c6b80fe077a1bf191fced91283560297b830eef65c4445d5925475eff68162c) ::
  (false, 0xcbf634539b78fde7df557127adf6bf1ea50e64a9032a1c82ddeca639705b88a56364f1cb7890745538fba6a297c2b6b110bf4afeb574f47a77b53f1373a47a2) ::
  (false, 0x7e8b3a9889e2f80e13411464e9f08858a19c522a9689f52c04f4be86b97b58ed4ed6dbbafc7e46d955cf26d56b53278fe1ebaec45b7e7d9c0dd5a05d80c83e86) ::
  (false, 0x27c33545f6d5941b8f3764a46b2a4689eaf2c3fa189197da9d4f0693eeab4e00806b915bd77581e8d36c9685e48e4cf1e7c089eb6ec1da422794cba319135966) ::
  (true, 0x6e758712d99e2b00ac69e3df973079f92227f4cee5a829a54dcacc1ae18603f05d4e67ed402e5bd2fa2422c3535ce3cedc4f5146542714dc55ad14da04f7deb) ::
  (false, 0xb59e0d90d4bcc56df50d5cdd5f099b57afdd9797502619779b70e7607e6374bb9c663af9af6a503a53785d02202029927082a5774dc16b145e48caeebfd062c7) ::
  (true, 0x178f196b9a8d40b4a050a131264ebfadb73c612b041e6826f151e4842147159a62d10cdc0dc87667c08601af00316a1f5ea5e7a85ce5de827f4017efdf567ea95) ::
  (true, 0x134b0bfff4a20cc081bbd0cb7ba7278b8953284c75b207bb1071b17631f2d6beaa5f0686f371c290fd11b62c2421c32b20f4b9bc378e39e55a9f2acbab0171e45) ::
  (true, 0x6b39a8ef274a331aa72277afe1c9178207a72b4a31ba59b2a9d9e7ce929dc99446faa1af329157fd3074ee1f4fc16d787e832dd14d5a26d5ea6003b4e303c00b) ::
  (true, 0x14b04e9bacb7b4c61c0df96cd343107cb9d8037d37026ea6d93048ae7117c2e6af12788b4588e24a145bf50ad28e887638b6c11e598133d16239e6957320e4d6b) ::
  (true, 0x26c35c9de0be75c08bf07695a547722c5d417afdd6ece09837ea4b73174b5990b27a305d2b49d97c47a5752fe161ffae8c5bd91b7415babf0681e79922a26179) ::
  (false, 0x243e336662072e286bf6f3b28c6bdf80935bf774ab0eb0b7e6a5b67c4b0d6ef84c3a5e7e24d8e9531682b0d3c8b79a6a9d0f90062a772b8e7add7e3c4a3c4ba4) ::
  (true, 0xe3742ab2b120e088df8207f863e70d0880f8f0a7c92679fcada750479a69a25ff74f8ee1973b55bcc8f518be20e7874c32198248a5219caac6f8ce3c8e8cee34) ::
  (true, 0x1504dd3b06b3aa9f0394246910ac13ef3ba67c77956d1bc682391bf0593b1f38f3f92b082fc22118772e2e6fe60a4010d0dcd93346d27913fdf75791129447bb2) ::
  (false, 0x9bb62c823fd3fd89cc789a84400d69762a436de4d53718e8aaee817c62a9bc7072a7013c36982c619794cf9d31ccaaec7e46dbcffe730ca87e2d44ce83d91506) ::
  (false, 0x1c401c7c4201cfad86e7aad2c6079d7264632775a82f7bd19e39ecc4d118941e8641c2ceab0574f5b380bf56e0d22fca02205fc1e882d05787c18c527f540) ::
  (false, 0xdb39f18db6723aea91ec994ed84f05b9b429be1a12366cb8a5172ff91aa24d1f5ddfc2f126253033f67620323c3b872312d69035309a7a460215a8124e7aef7) ::
  (false, 0x25d58fd857bd7da8378e5d6e2b655b6fb27778350c8d799508b7936cffdbe33bf0fb61cceef8e8b0d0188323c68ac7a507e6314a79b0702fca0380b37ba0d102) ::
  (true, 0x54c439b34bf20567031e88a3dffe16027f67e313de945cf191c776bcb677b405b34d34f04b7a7017f7ad19ec1c32b30e421fabdf7cfeca395b3fabac3191fd3f) ::
  (false, 0xac3b6522cc1e7b513c2f6868ab34749a40f60a852bdaa10392f8891124e2bf8e18d7c8f4e459d225320bae93a22f4a0250eb92a84031588341ebdb529f753e36) ::
  (true, 0x14c92b829c15909dddbac5707c1c64dbd4e69a80554c1c1d4d0cc28cb7be2708790e011f267aa31c749f59c7c7eef32c95142f18d74bea67734a2ad244989d656) ::
  (false, 0x560a6da9bf954bc8eb7055bf19bf197af7475b7e103b9e01873a398cad70ed00eefa0d637dda05e83dbd3c9617db38ca9fb610c2f3a2d08c31bc2773d0b83eef) ::
  (false, 0x687805757c564e6dcb14f8cf0baaab4c05eb6e1e61b9ee46863720f8a77e5ed520f3c33afa2fbe3d3d810a1875f6da78746f03d292eeef844543c59281b825) ::
  (false, 0x755137167576522da2a6ed149b84240ed2da15a8e9f2a37d20d0e49a90435ca6d65196daebd51a361f4edbdaf5fa4e428bf170bed98305c8c4ba9e6bbbddb056) ::
  (true, 0xdd5d07519b0141ebc0a4fbadf877d7acf63aecc9183f9decdb5aabf2db1985e04b7183d522f00ab45331bb2ec1b8603b39b33553c0441a6f0aec92f1a2a8a75) ::
  (true, 0x2cdc1ab179215c285305d852c780fe9b518b6cd2636368b0b4b9639fc5947e76c85855852022b14b40bb8ba2708b29ad8b366f889df4558f0d1a2f91d9c836b) ::
  (true, 0x185a07eddb8114c30d040fa5ca065810c7a4dae63b8d95019d87ae4e96e8bdcf7c840f19113d9574c4b46a390d9d831c3e643bac5defb9825dca4a658ee7ecf5) ::
  (false, 0x13fb6fa2ca21455c788518ad5b770c07d434bad50a5bb5d69dee35af938670932807d73ec2beb1450badc1c982b562f77705a53606cecc192da431628285d94c) ::
  (true, 0x16cc988d5ef9274d23dd7138cb936c609f7f843ee48347497665bd35668c8c64078ec40bee10f1b6b24ec2c7bded400bba70c3dad59368a72f75bb2f0b54beb2c) ::
  (false, 0x2004b2a45ecd846c939b9bd45ce177483fd43cf2618de1cabb1a71b312531352c5d436439de86ac77fb0375e7774e6fcabbd4334233f7ba00b9e8e8a712d265) ::
  (true, 0x2acf3cdef90611a0ebf0f487bd4594128410db24c1d96e4b8e9a93f66ea3bb0f73920f8767cf6b3b9106b9aae097446885f02333fff8b7fd1bf650775662401c) ::
  (false, 0x1462c2f02b6771eebf622c441887a1d6d4f0eada958fdf3c19948fedbb41a0a7e5622fbffea01141809e6511035470d9c9532f4334b20eecd7b3449658039798) ::
  (true, 0x11bc7adaeaee36258aa9f4a5ed556bcf717d994eb9df8e4347de3b31488a14d912fd5f6089bf91d4ab0d7a7ccdc49beb77f1456c6d92f1b431fd0683e064004ef) ::
  (true, 0x2dc7f362f69e8e13f006a3f0baffd6e232f98c00bbbeb66f855148600b0d8cfc7690c4604f5492dd1e87c564435dc0e871b7436f6e2d416ad4414df98c7e5d7) ::
  (false, 0x5eaa769cd6fa9a15510339e82ad20b19bdb49b9f1ce39a2c0d92148b63e700abbf8a5443fbfd2929a0b2cf28cb26328579cc805f19055739a6e2e7d27595b3db) ::
  (true, 0x1054256e527274de9bd1d1d1a2085e37aa9cc52189ed740403662a5d91cf7000402fb4a5aa889ac102a2234e3940ddf44887b61c6ae5f58f9a5b1c216edc5cfe6) ::
  (true, 0x994bd08f3e58fd4c08d38097a111eacf9a1103fe17b7e7c312514befc46d53b688555205879a57f1fabd776fa1358c0a4cd8b3921f8acf6e0969409e6195d982) ::
  (false, 0x12edebbc908e3bad252efe937653b90b40e57cf4f8c43bae228ca6875e2c6b38adb951ff461cdfe0ed1c5212c2da55a0a6d90dd9fc6356eaaf21bfffe697f977) ::
  (true, 0x16af31bd293260944762bfa8c7ffd9bb2055ad9171d6b31b4ce749646b1c2938758630eb6564f1d08e2b3fe21b48f1fdf897c8ab115fe188ba655b601c2e733da) ::
  (true, 0xac1372c40854e8c77358340e12cbf29f6f079bda4bbd84fc1bed6200522e9c26e89efcd90bec078fa3bf8975a865eeaebc8a8dc0c422b3217320fd21d0d2d1d1) ::
  (false, 0x41ce8d5aae6e531a37d668102392d596d9609fe8560b49babffded91c4269a2de0d19e515ec8f76ddbf54048f270ea151db463ff9c9461b9f42db41d8bbdd616) ::
  (true, 0xc3ab7ba9bcb613f058d9aede6b99288481768ff2afa32e36d451fef29dfd78ce2648941050589ca1f794d00a090593ff996ed4311ef528a0b1dc1b2c05da400a) ::
  (false, 0x54a13184a19987822a3972db2ef9c45c6a909489ad4c1077672205e2eec319d1786482d461dff67999bb0c93f1de7631e0aad384f36f5fd620b9860d18c9b024) ::
  (false, 0x5f17ec4200aef58c93673aabbe25cde983324a4667dfa48a2e1af6bcc24cd24aaaabe230e843138c51f2a7821422800886329f142f74af18a22d1607792f9e88) ::
  (false, 0x1052115cb213391476569bf5c5ce6df73569f69857228dff592c9fe3c855608ce4fc8f36ed5345b317ef37f3821c25c20aa4de7403fc9e53930b46518bedac9) ::
  (true, 0xc2aa56640ff4a0b6a9f8b8e9c6f421b905b1d74723ceea8f5c972624976a54e327a5717b812d9541f1e7fce9db3f6ecbb497875d242ef6acec5ca66ff1fb4844) ::
  (false, 0x41348bb4cc751b3641894d5ecc51607d301913c44fae444907434a61b1c3d4f7986eba59471a1b2a45f949e04512dc2980a4de998aa5864154e99836a75242fe) ::
  (true, 0x6ea32bf8b9da8c5d8a8ef784980a8c98f1138f7558ad6e30baa452c74588b7c21f592f72eb5c02636c1bce28eed053536a6c60724d489f1f060e91dddbd2f73f) ::
  (false, 0x2b294830b709cebae0099facc27e488967618ede848d1134ee8f153b15ec36007a73459de017cd95acf591b061c3cb4421e28bba687f1f50ddf296f4f0026d7b) ::
  (false, 0x7a89abca4cd2271a23b184c2762015c180cfb53f1fa86317741376a83c989d5f73659137b0e16d55b41471dea78c02b186775617f44547d0888638b80337a2e3) ::
  (false, 0xa15dc0012f92dff452ab2e1bef52397b610e84a4e3aa47fa0f8dcaae6f33490d4a5fd31b9441e9f1fe4b3f00775371f19d3d4e2b07a99ede3fad0fba5ba56b3) ::
  (true, 0xf2740cca5953a427643fa164ec38b6ad8fc5b5cd955508392436db7967d041e4ae2a9827f3d0c6ce6fad9b63d88a3d61c242a74a7e8b22f5148860c1741d3684) ::
  (true, 0x14424fbdce0befdd624423e61c1d6ab4088328cc792ce53128573d93588cb4cfd208bbf1e31907430244ced8d09e7ec9bc6fb88984c551a64cacc0e969cf6c7e4) ::
  (true, 0x14cc9c9ee8b1b534011f2956f6e7d2de3174a9dce69c0e1c0204113c290201a4261917eccc0e705ebf2d50309c699aa3e2e65bacf52d2f8ce5fff695b8f1d79a0) ::
  (false, 0x1e3dd261533a29372df714989f97157eb77a9a6568e8159aa6ba1f02d6c54e38b1795155240c9de3a1d43059e955e94344fce46307dea40da2cfcb382d998812) ::
  (true, 0x58b77a5ffe92278e9210763fd73a93f4108f9fb4fc0efa1708925849d3aacebafae5d0970bb5546e9fd9e0c7dc1ee3994dfa02db2b7ad439e7e8e74ceeeec662) ::
  (true, 0x24598ac55456b592b3055765894fc52bd32ffdc677cf7b47ee5e3de44b831e81450e849c951e89871ece7664f55c6b6db39996faca01948c7249382bfb883fd) ::
  (true, 0x123393b0faeae53ebad68772f9d9e74c5f70ddb305eb53e9be7589c5ce1d48fa9c0ec31f9aa87c3ba64acc2841eb5d45ea336504e0eb5f188f157d20388c68dcc) ::
  (true, 0x3376c39cdc449ba38dfcdef6b24607f36d97178443efdf4d186962f7cac983fb7cc1edc8e184b115fd4eda16bd76b70958fdc54e080228d3f233a5dda283f5cd) ::
  (true, 0x11640612f3ac32d41f11ff541c625b9476b23d8ee7997ce67239a6c8f87222a9e946f662ab768ca2bebce234932cd3e2158399d84881bc7ddc7d01c811b9dc570) ::
  (false, 0x2e693c2771af831d49ddb0214599748a0859ae07d5a091077093ec6b9b27238b5e69599b27334f7137a93de376062bd40f6f2c51b67b551a6fe6138c5f388a56) ::
  (true, 0x87c5914fe1dcfb41330761747f2a2a92be5d4cedb04f2e75bb2a736f42c304fa32e61119177443610ca1d5904812925f5096d568977ff06e51bcc1bf9016bd1) ::
  (true, 0x149563cd0dba12e78f0c5e323564e5f87051b2b68e123a1964c2af70cdcee6243ea106ac2a5d57c74630a5313bcc42b9286115076bd5ed97c6c27a058b1c6c704) ::
  (true, 0x82fa87e56c0bc596533c171d19125e760f18b792281956c3a14fcbe337d4f855686951aaf494b0af19ef910679203bc33d27ebdafe010bc9459ec0cd0487df3) ::
  (true, 0xe9b7a69187b1d8cc9af2c39292df919069623128749fd1b82aab6cb785afd247d2a8221a160fdd318f7dbbe4c96fcd0951c31bcae1c4c98a6c60866a765d0bae) ::
  (true, 0xb423ee714a47bd2633fdf60598e6614fd6facc50b775101c988f7caaae33575f314b26f7488e574cc7c900f88c06919f25aff5db9483afc73dd67ae75b3bcbb) ::
  (false, 0x7f033f9d005f44496ee13cbfba7445a083ec8c977cfc32be44d67baf4912863f081ffcac7d2ae31d43e2099f65593f7037df199a85e904a74d0dc8e965265a0) ::
  (true, 0x80402e809d17932f5ac043e28af3a7c9f401cfbe827f3a69825e379ec05e2f166a1a30230274cfd42a4b707de20365ab4b5e4c6b2bbd7ee7e84ea24e41783a) ::
  (true, 0x5802e7a3cb6ab8f7d13581866d3b852897f0557517d85ec2cdcf7034d610f1e5ccbcab31eb0abd43b9f51c2722ce5708068b7a8b2675ed842c201de2c258ad0d) ::
  (false, 0x41c177644530e86d7a7185c471ed4a1a1651475d1793bc41a8004ac1f9cf0e43381f3e5a7362da186696105a86b233fb8ff7b601391b8e4b7181268d829c8363) ::
  (false, 0x15fe895c0199a0fba688a314bf4ec508a26c61a4f89d35fe67e36ce8dec2cfe019c7f05d989b47398812034fcb56192d842da3f944818a796343a69320eac75e) ::
  (true, 0x1b3d5294097311519b49b8ced4f83c732e03b0f2d44ede3f6a0183a7fc06a1e5327a7c0b11a7fe980a174aab943ceb4ea9b677ba99fd90aaef7049fba792d124) ::
  (true, 0x102574bee0548ed4e45516e9b59aa0b82031114b4c482b47f6ddaceeada68ee9e1af2aba4fd7fd926ad5cf891ddb69a3fdcb31ac4ae2fc5ba692b4a09aad6b197) ::
  (false, 0xa029fd3c93e459a9aee7fa05f239807793189307b2f059fae646fe981ce12a9d02f9a0fc3b52f77bedcdcd2ff083f99f668863b1ed76eb8cb7dc7f5cbb06da49) ::
  (false, 0x4dfb90f6ef05cb39c6511a420055c88d26747b0436450eb21cef9783ddf5d08810394eadb812cbd4a1aaf803df08db6b1e83a6675cc27be2d0de7325a449d451) ::
  (false, 0x52e8803ae935c10e8b27a16ab040d3c18761478522aefada2c15123fe7e77d2343a0de2bb85428c9a59480eada89e2586a21f64ae1070533caf8e32630e0ee) ::
  (true, 0x103830e7e94d806be323cbae86352b8c7bdc5688d7052906dc0d25a3e1c04d324983988c736f74a429038e125ccd58512f440f4b4dab1ccf33b11d8feb57095b8) ::
  (false, 0x33c3d1375c82204a4b7572ec690581bc1bb9a19cf83b805b90a1e81af0f3707a795fcd5e1f194eba241d2a737ac28548b2a7b9cfb6270549146137fdb89af302) ::
  (true, 0x79f62ed8c638ac67b43909ada0468558f2ba925a6042e44bd8747748b998e644bd059125533a39bb8a34a937cce79e1252fc650169e8d63439260d12a97cfc) ::
  (false, 0x447ff3daa48fda2e8711e02077ab4571ec420f4d20b78b9b0a3cb833cda69b6cef6c8383d1bbbae9a2de87600665eb8ac4b6f2b96aada54d9e4d89b3e4c9dff8) ::
  (true, 0xe41683e9da37e6fedfd91a29b70a6dc0969ce559875940c15e6f9473cc1cb96d3d901f47a3f48bc78aa3a945a1f389588dbebad032e0076aa546b01905899f39) ::
  (true, 0x394eff70c4f236b5ca732694c492c985421598fe92a95ae62071bc23f54bc7a1d84e30a91549708632f27e275febaae976ff88ac3736db40232f6f268c38ae7) ::
  (false, 0x0) ::
  nil)%Z.

Lemma four_pow q m : 0 <= q -> 1 < m -> 1 mod m = 2 ^ (2 * q) mod m -> 4 ^ q mod m = 1.
Proof.
  intros Hq Hm H. rewrite Z.pow_mul_r in H by lia. change (2 ^ 2) with 4 in H.
  rewrite <- H. apply Z.mod_small. lia.
Qed.

Lemma qr512_order : 4 ^ qr512_Q mod qr512_P = 1.
Proof.
  assert (H : pow2_chain qr512_P qr512_steps 389 (2 ^ 389) = Some (2 * qr512_Q, 1)) by (vm_compute; reflexivity).
  apply pow2_chain_spec in H; [|unfold qr512_P; lia|lia|reflexivity].
  apply four_pow; [unfold qr512_Q; lia|unfold qr512_P; lia|exact (proj2 H)].
Qed.

Lemma qr512_ok h pk nc :
  (forall k m, 0 < pk k m < qr512_Q) -> (forall k, 0 < nc k < qr512_Q) ->
  suite_ok (qr512_suite h pk nc).
Proof.
  intros Hp Hn. constructor; cbn [sP sQ sG sPick sNonce qr512_suite].
  - unfold qr512_P; lia.
  - unfold qr512_Q; lia.
  - unfold qr512_P, qr512_Q; lia.
  - unfold in_group; cbn [sP sQ qr512_suite]. split; [unfold qr512_G, qr512_P; lia|].
    exact qr512_order.
  - exact Hp.
  - exact Hn.
Qed.
