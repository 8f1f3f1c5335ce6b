(** The encodings of the multiples of the base point that the crate's tests list (src/decaf/decaf.rs:166-262). *)
Require Import ZArith List Bool.
From Verif Require Import Base BaseProofs SpecParams SpecField SpecCurve SpecEncoding SpecDecaf FieldTheory CurveTheory FieldBackend Backends BackendLaws
  PointSpec TwistedMain DecafTheory DecafGroup DecafRun DecafMain DecafFacts DecafNum DecafRfc RfcVectors RfcFacts RepoTests.
Import ListNotations.
Open Scope F_scope.
Local Opaque fadd fsub fmul fopp fdiv finv fpow of_Z padd pmul pzero fsqrt D Dx Dy decaf_encode decaf_decode.

Definition zx4 : Z := 0xb3c55fc2cdfe0c2e3a72bca6d46e2311f3d816d0cf03f46353e519504c85c5c01b57cfbb2a9a393676f36c633236921c7ddb91fe05eda2aa.
Definition zy4 : Z := 0xb38349f993aa40c9dec279c8e98c24195eee462a08f36c8db92cd2932a3e4259e08feb694fbb8f34580a09604b2f63aed26aaecf1f07a5c1.
Definition P4 : point := (of_Z zx4, of_Z zy4).
Lemma step_4 : padd tw_a tw_d P3 D = P4 /\ decaf_encode P4 = nth 4 decaf_vectors [].
Proof.
  apply (vec_ok zx3 zy3
    0x483920e5c3c38fc317e13b8599dbdf687573726aee540e97bef58ff52fd89e5ac291da18f3cc62522455a4e3eb97a360290e676ea01cff5f
    0x90543674a6393cf41137f08beab34ba5c638e0b19ba1dcfb197fb21a3ea6d7f22f139b38d7f3e68d348e05f4a5fabb3aca2698bb1e405c9d zx4 zy4
    0x8904c61f885f9e02f6d614e6b789a46e24efe017bd283da97841e4229cd6a5cc8f9c5282bcda20dc76634bc8c50a20ffead82613774212e
    0xe8c3d58719e2c57618e1e49266f480a4233926eea48fd46c76a38091ae1b1abfc1611b9a46403c9ef71e2a5a76a4e73680624a322b087df1
    0x8e72a5b207aa2c652159b5bac767241721659c88c35e5e5d90acf3d42d66f4c3f4fde2af17d4988c3954762bc4a8924ee553dc2aebd2dd3a
    0x120ecc5cf3121dd79a159468f213169c8c66660ad2e57a98348ad6e0dad67c2e21a397529484cfb6d744535edfec976faaabc098b9e0d0e5
    0xc218bfbd0ae301a7c744bb870932081d36776f2c2163a75627f99f0045d4651fd418ada694302dcd85bfa541e4d34533c08dfbb54ec6e4a
    0x60886c0c0e75bfd79218544fa1f75a8b2a13b89e8da29abeacde2299cd244afc2f33a1ab734bbcc9553e34dd8054e05ff28826b69817b00
    0xd3d649800c67ee546617f5cfa4c274908c193afdf2b07e719c182f1ee261b76563895104948a99276dcf8f70aa7ad07f8c5e507f9ba4e4ac
    0x7e0f33e7c1b2a149ea15738983cbf33cbf33d11f8c842801dfddfb7ede06dd23f5560ee6088eaf6f9e35b029a487aff8b847b4648cceed04
    0x5565ecbceb221697beac285c6a42e8ed8fc33f9f4d7f8f6647bedc3481f04a7e3efbde9af53b3d24ee358b4e7c4ee6921cf2218e271a5c04
    (-0x805a6e88b1a464c0c576ebb5a9e789d39024fd81407c0e6bfd930da93ac8b15af6a582c8f76007a3e98f22532420b1e436595c6d70d76c1a)
    0xd3d69b7cc3bad97d43c6200d90c48dbc24ab583b64e71859019e0a3375abfd7ee761245f9e401868f0ab7726c2a76d1a4482fe5329e2c38a9833964a0bae7fe92c6dffaf49971d42cf1fb0298781a1a07a6f53c22f048a76c05fbeb4315940037795bfc1981330a14ce10608794bd9d0); [exact even_P3|apply byte_list; vm_compute; reflexivity|vm_compute; reflexivity].
Qed.
Lemma even_P4 : even_tw P4. Proof. rewrite <- (proj1 step_4). apply even_padd; [exact even_P3|exact even_D]. Qed.
Definition zx5 : Z := 0x3395a9bbc97d684e6fee85ee03d0e46e1840a5f163f6587e64bc401ecfa0ae962c2860c5a9eb0eaaa73bd94f60a04dec61320a7612a538ee.
Definition zy5 : Z := 0x6bd98c8968990a76b8d42c76340353be66919fd676f10397f468edb5ff54d2a7b6254522e917feead9663943eaa056cdb94be5ffd0242cf7.
Definition P5 : point := (of_Z zx5, of_Z zy5).
Lemma step_5 : padd tw_a tw_d P4 D = P5 /\ decaf_encode P5 = nth 5 decaf_vectors [].
Proof.
  apply (vec_ok zx4 zy4
    0x8904c61f885f9e02f6d614e6b789a46e24efe017bd283da97841e4229cd6a5cc8f9c5282bcda20dc76634bc8c50a20ffead82613774212e
    0xda325d56e3c3c19a643ce8a1859285d7712e5592fad8de87a88ef8597da57319709d3bcb4d72d4deaf818b60d084d10ff1bf89d455e368a4 zx5 zy5
    0xbc4a74b2f71cea2eb016d2f2dcbc8a776965c9a6bef0f7f827d0c35eef41161294599af1be8e675b0fbce07f907f73b1787f9534111d82ed
    0xaa1d98bba91698e9aeecaa3ff5772b3a69a921cbe585a8a4de71c22df5d801fd878bf5a87f409a8ddd1f94e3e8e9761ebb129438daee53b2
    0xda6fbf7c2f441911be8cdf3278ae380a688c164b0c95dd2e4faf34f321b19980efe8cfd60b38c5334ef9af6a48a25ad2f59ef96bdbc4946e
    0x7e0f33e7c1b2a149ea15738983cbf33cbf33d11f8c842801dfddfb7ede06dd23f5560ee6088eaf6f9e35b029a487aff8b847b4648cceed04
    0x1703b57bf28117f842a6e14b41aa09504517a3cfc53ee089dc99a431d0abc75e8081a27508bb2cd0ea46ccee83518cecfb0389d4da9a44e
    0x8b35d147e9072dbd76fe1b17584125ac20da02a39d6c4929c46f19d6738061e995688107a52d6e6349647d718534807f9a1a4fdd200db2fe
    0x1131896a202654a37d61fb11b0b491751e78a4eec5038700fc58f8e1bf511132396a7e16869e288772e48bc9bd1a67d83c3da4370592a7d57
    0x15bb641fe66361181c5f8e006770e69dc83190fd1e1b9402a99d0b352890f1018caca072fffc2cbbdeed696c3bc5def5a56fb9844c72ad4b
    0x66a659255acbb73e12203e1de62226ac3a72823ffe172fbc14af1d188082938129f24dc8783d7d3fa8ad167ec25d9922cdc987c105201581
    (-0x7785aeb926e8766180cb4102c19188fe7c3325dd310181732ae2662232b80db6adc42fc9068bf82325aae14ad6ac255633a3ef5445a3da82)
    0x17455df9ec81112481efab9fdf707b403e82a50dd1640f1b8c694d215845932c78e546b45817ea65bfd3e9752c23deb3447a068c0abd3cbb6f5df7d4a9817db59eee43dbe471b599655a5c3d4d82e4ba36d1e4d4bdfd4c5e2ab5a2948db5cc3b0d34d8d074a9ed2d7d82c707a1ffc781); [exact even_P4|apply byte_list; vm_compute; reflexivity|vm_compute; reflexivity].
Qed.
Lemma even_P5 : even_tw P5. Proof. rewrite <- (proj1 step_5). apply even_padd; [exact even_P4|exact even_D]. Qed.
Definition zx6 : Z := 0x90e9b614b77becda0c63c24ab0d9968f1ba4a37eaca78513c323270e17aac74894f4ca5bf4f95ec134199410e2c16341e77afa3c98ae4fe5.
Definition zy6 : Z := 0x51c527438043f83afeb742d37dadecb117d922dd725c11ddd9715a3f8c8066e64b4ddc438acdf69b8612b998bb56c8518779f31c7b76b25d.
Definition P6 : point := (of_Z zx6, of_Z zy6).
Lemma step_6 : padd tw_a tw_d P5 D = P6 /\ decaf_encode P6 = nth 6 decaf_vectors [].
Proof.
  apply (vec_ok zx5 zy5
    0xbc4a74b2f71cea2eb016d2f2dcbc8a776965c9a6bef0f7f827d0c35eef41161294599af1be8e675b0fbce07f907f73b1787f9534111d82ed
    0x2a286f9124fcfabd1c1510edd86f129c5571f70ee5dbb9219544d7eda4aa1bb82970dad786aaf0a464c538301e0bd5ca347ba6edcf61495 zx6 zy6
    0xb28c4ff4e9f3b9e683e6d22beb63762ea6042f2cfa5bb45ad4c3cd13d33db6dc072301883af63eb216051fcb5fcbeb2eb37a4816244a2776
    0xe814318a5ae7e4ba24c6999fc777678882e5645b11743a7b0b2f1c1a62b572ecc5558020eee1305a57125078886a58cb94fb82f354355bef
    0x57141392a37a1be123c9c5b6308f5cb4c92798194cea3e38a2a7b13067157930c85cb063c9e750d20b14ab2a32cc6ab023f57aecd171ff9c
    0x15bb641fe66361181c5f8e006770e69dc83190fd1e1b9402a99d0b352890f1018caca072fffc2cbbdeed696c3bc5def5a56fb9844c72ad4b
    0x1fa060e7562bbfe1ed011110518bd1f46753ef3b2aa8fecbf454a88ab6143db44ac935f375693ebcfea26b8c5891dcc8dbf04615ed9ad30c
    0x4f3d7d27dd9b27ad09d0c36ded83f4c7a7b1d65cfba311a15a7b7e6330475bf23cd39b4118b0c7c52abcb889c4ffa9b6316ed3ea23f9ab36
    0x52ae0b6b47592d22a00145f7382a909fb0ff86e4e088fd6767b53d1fc7eff0e4d2da07efccfbdc56dcdd17a2d6b45d3e180d056c4ab7a7c0
    0x2e498caf7c828c66f8ec3c0de8814a05ea74b3a22edc9cd30180bb6fc4fcce0b6a10969029ce89ac38d36acd3a4b16d6f56101219edbe745
    0x805cd92e4a55e3c4311732a6106def6c920ca610f154fc3d38a47440e0a473f4c1590092213a64a0df751fd0443f3a62040bd9ba9a4159b9
    (-0x36a2cf909b3d92481848b8ad9769495ee8e4eef50ecbfcd51f825f17390ca78ba75fa91a1dad96f96a92cb816d2d3e9c2218d0db002b3640)
    0x29853a797e207ef80cdf6dae76a4e39fdc3cf5bcaa5e61f7e3e7a926de315aea400870ae722db9cb6cd60c80bd0c568fd94888754b11c630d12c9ebf2eab5e4f9e6e23916faf36de70bf206888c7e76a1deb77853347b8dd7d5526b8e7f6b26e8d8efc0a44050ef3ecf5744027600e2e); [exact even_P5|apply byte_list; vm_compute; reflexivity|vm_compute; reflexivity].
Qed.
Lemma even_P6 : even_tw P6. Proof. rewrite <- (proj1 step_6). apply even_padd; [exact even_P5|exact even_D]. Qed.
Definition zx7 : Z := 0x4cc5a79cb3f005c2fbb5eb5a688a8cdb075188ae50e8281d4e40c7600368496617b1e316eb249407c70921b6dfe17cfcd554920cbce3d732.
Definition zy7 : Z := 0x360fd610f89089a12724cac27ae73baa3c83b922377fab3686390d0042e2ffcef8ba7d20825bd640eec234a60697a63c532a2d2e40a517c5.
Definition P7 : point := (of_Z zx7, of_Z zy7).
Lemma step_7 : padd tw_a tw_d P6 D = P7 /\ decaf_encode P7 = nth 7 decaf_vectors [].
Proof.
  apply (vec_ok zx6 zy6
    0xb28c4ff4e9f3b9e683e6d22beb63762ea6042f2cfa5bb45ad4c3cd13d33db6dc072301883af63eb216051fcb5fcbeb2eb37a4816244a2776
    0xa0cc1e5ed0d46ee730cfa27aed649b1cb13bf57fc90e32440249288d8dfef19425dce6d5a079ee63451e247ef0f69aeb3ba8ee2204e5ee4 zx7 zy7
    0x8e400134d84fb3abbb58a33c5277c9f3df9e71419eb7df4d8d55f9d4fbd42a2a8c00b5db79e33f46224a8929cbbe5aa5003155004bf1ec57
    0x9d7e89b1c6c095f34b7c01940ccf2b6f1fcf9de027dc7574072f2d2fe6ffd3cc1b62be17495c429444a8a2099aa2093a8a49f38247d46c6c
    0x93c2b9fcac1b43fcf425c6214aee472e84e8414ebc1edf62a8695aa82f47d4fc9d28762c5f51cf70af70e4f668d012c228748359fc2c055c
    0x2e498caf7c828c66f8ec3c0de8814a05ea74b3a22edc9cd30180bb6fc4fcce0b6a10969029ce89ac38d36acd3a4b16d6f56101219edbe745
    0x1dfd726c8a7b79ae003659be2db681005f01db17e21361de43cc1be9d04f56768205e4c8f6ee689960a6206cea4e0a3eb415da24d0ae1ce6
    0x712d7848c8a134430f1156acf03c77a07600c8f7ee71c8b18771e9240eb04bd69966150c43ebfb8410c9ef27283e4c2908b8bd50f72f7446
    0x75126d9680cd03693820cedc9928f08c6401385537c539b0e373e98a0399b759349561ad2b71fd57c2de675bbf0ba3874016d104a9a607fd
    0x10367122312577518c8aa17b235d81043aa9473a63a58cb618bcf60b9f0c0e913089c7fac2181e9cbf743a4215119d886996a298450dd4dd
    0x49de7f4f73165a2b012045325e70032a549486da00ac11d293b20796988bd75c33a19de85e6eec930da374ad76fe707ffbadf9711ec5b835
    (-0x478a29f6cb655bbccde1d0d06d623f64c3aaafea81ae5c38811579c590ee608f9ea5a398a8e248be253d110fd2ee12e7d27998a3bb95088a)
    0x28c770e8b93fb537e47d443059e42885f0c0bbab78d13ac2ae22ca9b965c99f8551982f50d6f8afa02452da8ab75078d7595da09231cb67ee9cc8cd6a931b49ccdb313c93ab7c1779317374fbe4d5f7c6f956698b73a62a5e26efd75949ebfecb5d1eb8ba8668dcc4e574eb8a7676b); [exact even_P6|apply byte_list; vm_compute; reflexivity|vm_compute; reflexivity].
Qed.
Lemma even_P7 : even_tw P7. Proof. rewrite <- (proj1 step_7). apply even_padd; [exact even_P6|exact even_D]. Qed.
Definition zx8 : Z := 0x424ce7de4ebb3b4bb9389a327c732abc43a6af24e8450d6ccf0930bee8fa1c12895fc29538c0899d04b6f647d8d58ea17f8b89fa0b8e53a4.
Definition zy8 : Z := 0x1413c564c0ca244f620bc214e93fd2f3e9f48c5966a5c6c958fd8d5864613e03307c047bc067231bf14b22347886819e6edd150c0e4e6e5d.
Definition P8 : point := (of_Z zx8, of_Z zy8).
Lemma step_8 : padd tw_a tw_d P7 D = P8 /\ decaf_encode P8 = nth 8 decaf_vectors [].
Proof.
  apply (vec_ok zx7 zy7
    0x8e400134d84fb3abbb58a33c5277c9f3df9e71419eb7df4d8d55f9d4fbd42a2a8c00b5db79e33f46224a8929cbbe5aa5003155004bf1ec57
    0xeaf5d10af1fa3218cbad84ea5e77200502b61909adc8a7a2ef609c95027e54422b167c27977ccc925c7818fad768ddd92bf1998bbd4467db zx8 zy8
    0x2132930efb6c147e5ef9202c73f7e296fba4fa5b0b44d3a144571fa2d2e155d7cc992edd3748067df68f94042e9bd57109356aea6f3c0d72
    0xfc606278e0d3a9c4fbe5668c3566102427684000bdd22349e3d067518bbf609bf82b31f6d991d52a20032c4d420412c9af276c0df80f3604
    0xc690b6906b31f18ff85281ca5ecc45083e864a273c19d56fc6690ae3b9020ec2ebdefa4e0b11ae40e4b6fa514396ed11b8a04b512482982e
    0x10367122312577518c8aa17b235d81043aa9473a63a58cb618bcf60b9f0c0e913089c7fac2181e9cbf743a4215119d886996a298450dd4dd
    0x17e4a77ff59db0c81521a2d5dbcf879486f96e517ca60533d09353724a225af27a5f6ed170094f8cae176da19fbc103208152f83c72dbcf0
    0x6134e3516d097698707138b11c0b8e885654626755c207644232a215edc7b88b2ff3496b02683a46055ca0bb94491db68958b4184285968
    0x54e8472904cbaf0fd89e8a070a44a22be2c4c59fb36593b4ac7bfc5425735a57d9522c6b4d8ec542d0e80945b90d3417b6708dac2fad5eda
    0x53320f1da0d25f1370d739343d80878ff5715bbcaf2f5ad75ebd652ea4e4a9408c7b20d40e64cafd992cceddf0ac236234d2c7ca09f32de
    0xe7a2277edc8fdd4ff31a55c9f227ed6b2675921910a867428ad56ac2014ef95e8a29253b9f66c824ab81a5e2f576ef988f6a18a9dd661101
    (-0xbf3c4e1f1b51687c0c2e36e2e6797952e044873395e33b1c8e58abc68f06efba7422d99015ac2096c0a7949445b3a689275064ba4f9f1f54)
    0x162f7b2f1db727f2159d2ebcc090f10d3c0d87aae1c36ca0bf3256e83e7115fc600e60398902feecb249d6bccba00fa63a20ee1a783ad998b1ab50efb60a0e7db85b32dd33b97860288c231572d7ce818e05eb63ef668a7f9a1a61041d3f4c3f051c0eb8c7cd71d9c5184fd6af99333); [exact even_P7|apply byte_list; vm_compute; reflexivity|vm_compute; reflexivity].
Qed.
Lemma even_P8 : even_tw P8. Proof. rewrite <- (proj1 step_8). apply even_padd; [exact even_P7|exact even_D]. Qed.
Definition zx9 : Z := 0x8d8917583f3071183c0e94e414af4b7e1f513f68a6e073a00c4a4e9ea89fcfbff6513a026d41d871d27d1e1c6e361016c2aa488a6f5552dc.
Definition zy9 : Z := 0x1e7f6eba6b87a044f5051fac2d278204365ce9a4d36ff44f1ebfca7a458f8c7c3351125b87f8628b406829c378e5020e988945e9f2e28aa9.
Definition P9 : point := (of_Z zx9, of_Z zy9).
Lemma step_9 : padd tw_a tw_d P8 D = P9 /\ decaf_encode P9 = nth 9 decaf_vectors [].
Proof.
  apply (vec_ok zx8 zy8
    0x2132930efb6c147e5ef9202c73f7e296fba4fa5b0b44d3a144571fa2d2e155d7cc992edd3748067df68f94042e9bd57109356aea6f3c0d72
    0xf61775a84cb1ff22df7d9691b29a347ff08703aa46709949a180da974feb491f2a815a8a89e22e46dc1ae5ad99a28c0039e0475f4cf05962 zx9 zy9
    0xeaa6245c631fe535ccc19a48df432a69203f4e1a8ce52101f4456468eea2c6da0cf1de3f25238fcaa0cd3106ceed861e26b3f133bb7e4748
    0x6df405cb41db955fb4d55710598d973bacd79a5e5c3e3a4ae7d1daa36735dffa38c5141f27b6fc010e8af8c04b31839b1c554d548577c6ad
    0x12118d67d96ca05b225f6e4aa08e44b39ea1a79cacb295f4eb5da90bc350281bf569000a6e38f0bff5f814483e8891e9c1f8af604326ab5c
    0x53320f1da0d25f1370d739343d80878ff5715bbcaf2f5ad75ebd652ea4e4a9408c7b20d40e64cafd992cceddf0ac236234d2c7ca09f32de
    0x59378efac9d8ca75fb1a274b9acda184b98c6064993afb003dc4d1cab605075e3a0e125113dac80c6e708c0abcb45a788a9e273c272cf98
    (-0x5b9091b85e22f50455caf0d0db865ce8730dbda3d585f6d21105218a31aad16567bfc47fedf3e3272ed94e6ede51e8b9eb5fce95024c8cfc)
    0x48e6ab63d4b018aa2a569754ac6a2a72a5d9124791ed2dda05d89f816a5f69c79295ec6b984ff94863d170882034393a8158f4927fb1b6a3
    0x10dc84f6e5453036ac450b6006acd84d3bb007c3409f2dd1189108bfdcba6eff2ed0735c029fdcfedfd88a58199dfb5ba600c5e91f47fc0c
    (-0x1f0697971283de779ddd1008866267bdc144fe315867edb6dcda67e488ce4b146f25a0467a551a2409e11bcc804b567bfd61f087281c63d8)
    0x182ea00aeaf113a71df2c8b85bd4b7dd3fb0533d88b8ece771042bf4a03e0de375f4b501e8880a6dd4e34052df008ee5a5c8435b5277f3fc
    0xc4b768f9da22b786c9bb9f06751232ea6464b32ae144aa6b7c324b75b65f22a3f88591de8a80a13b6707fb0d68126c6daf21256e6370703f7ae78ce8c49ed0eda2cc8ed8807cd494dd9086bc10e57857408c85d30366a74c02c65ac4bdbafb2e427b93d0d0b107719f671e472f70eac); [exact even_P8|apply byte_list; vm_compute; reflexivity|vm_compute; reflexivity].
Qed.
Lemma even_P9 : even_tw P9. Proof. rewrite <- (proj1 step_9). apply even_padd; [exact even_P8|exact even_D]. Qed.
Definition zx10 : Z := 0xb01f91d2d7d4a77bdd7171d49c5196773cba2a5c165546d0ee05d23724b51b71e30bb4e4dbb2c7b62521a8c368b75406eb382a597a39ff5e.
Definition zy10 : Z := 0xed7be159af27da45121f65ec4b4dba3f94cd00cb20086ffb003d1da66197aa0f9225105f799c14eaea27e719283d9094656426e2bf9619c5.
Definition P10 : point := (of_Z zx10, of_Z zy10).
Lemma step_10 : padd tw_a tw_d P9 D = P10 /\ decaf_encode P10 = nth 10 decaf_vectors [].
Proof.
  apply (vec_ok zx9 zy9
    0xeaa6245c631fe535ccc19a48df432a69203f4e1a8ce52101f4456468eea2c6da0cf1de3f25238fcaa0cd3106ceed861e26b3f133bb7e4748
    0x19f4596a8d97514c4bdd59c3fb4c5bb31ce16a121a3b66df4c70d352d973b46c164b0eb38ba418910215eff5beef7bdab88e3a453a0ac8e9 zx10 zy10
    0xa90bc4448c8444d5141a6088a7abe14e1f6c78f1ea1709d07ceb7d1e38b0f484c122a919e4b8f35b5844f83da9278e25e60d9378ca209b17
    0xdac0aeb1ecc665764f1b217782f2dde3367553ee246f0723ee80c9b3601c4a82bcb0eab7c85aaaeeb6c90fdf129543a92c6bd0be29351fa6
    0xe409c4093c91166a217b17ae44749380de69345729d91080b24b766f8751511c952b3f6d7e6721e5492969a80c4713e13776e9f15c4ab12a
    0x10dc84f6e5453036ac450b6006acd84d3bb007c3409f2dd1189108bfdcba6eff2ed0735c029fdcfedfd88a58199dfb5ba600c5e91f47fc0c
    0x2769bf5be14807112c7ee2a6af2ff6cb9b50ba28bbf34e74b1b722cf6b5477dbab8693cbf5600d89cdc7ea638c40891d095a6da0fc9f7e41
    0x46f1a6b662ebf49eec20d05b3709f7f45d8aa4b6316e04778bb6514dae00b8ebb5133bd258371dee7a89d36c4857770c129b9ef3fafce5fc
    0x6eb194aae575ad85c308f995eb48dd458672cdba61cf3a0a7a29c05f9293cfbe6f7327d73025798b57a99d0b618b8e752674374130acb974
    0xa3627434b4c293e1d4786f492bb16942e04e995ab6bda4e2f894a117c636e766df10ec97b4d9d097d950df7a1eb4af767b3ff72f4e7ae9c1
    0x41c14e26fc7635fc1264cb9fa631f3c218be104e4e074fd7cd0fdabe458bfe59f1ef8cc4fc3f914fb822bcca29f8255281eaf25403f2c6e1
    (-0xabd8d778b1b2f5a74b402d0b807333201b890fa5f4e85c12977518d5db3245ed7e05a4e7bfb450abc12ecd7479d89f791b5df0cf36bd409e)
    0x1df5cfd990547ec2f3ed1b278c007470b096f7521d0d09befcbd8681411a7253f2151130e8488e39f430817ab96fc0daa8d9f056bb239472b63820eff56e7af6846889b6a9f68d04c1259aa312ef7533f005996bb47661ce34c208c1f11916edae875946e5cbfeb2f7be65f77d666a9); [exact even_P9|apply byte_list; vm_compute; reflexivity|vm_compute; reflexivity].
Qed.
Lemma even_P10 : even_tw P10. Proof. rewrite <- (proj1 step_10). apply even_padd; [exact even_P9|exact even_D]. Qed.
Definition zx11 : Z := 0x1ff21ff170874b2eaef1549e10096aed7d155df3a63f1258ffde7ceabd3313d14c12d8757f63898323ece3bf38c9377f57d9da74b7e50a4b.
Definition zy11 : Z := 0x831cf14d5e905909b7d40b341580f63d7a94a408d9fac32225660fd91061a591e50bb3f168d4c1989ed3d0b0a4a3385dd30823e654b6c12b.
Definition P11 : point := (of_Z zx11, of_Z zy11).
Lemma step_11 : padd tw_a tw_d P10 D = P11 /\ decaf_encode P11 = nth 11 decaf_vectors [].
Proof.
  apply (vec_ok zx10 zy10
    0xa90bc4448c8444d5141a6088a7abe14e1f6c78f1ea1709d07ceb7d1e38b0f484c122a919e4b8f35b5844f83da9278e25e60d9378ca209b17
    0x4bc70cba1d88aab375c4d6a2d36ea1094b11ca19c30e6c15a33eae124942ea06b2a185e638484270aba17b37d61263af8033f23897b920ea zx11 zy11
    0xabd0d35c75f74c37fce1352a8d32ad545e879e437919b270d96d4919c3db8ad49ffd4127581100721341fdbfce2f24e3bc226b259db8675d
    0x908005295c2762e8bdab7e6f59cece8c8fb4f6342df2c79af427c8cc805cd3c976a90178da8d6f56b1264a52672b6040fbe50b7e3625362b
    0xd8b1426f2381363628dd59fec8c8269a31eb562e4501372377fe68a72c0db028449dd385e5e15e734d8a34b7db27cd22dcd17f454f327696
    0xa3627434b4c293e1d4786f492bb16942e04e995ab6bda4e2f894a117c636e766df10ec97b4d9d097d950df7a1eb4af767b3ff72f4e7ae9c1
    0x1c64dc9c58e4cf386d55a07b3040a2f41b1560fcb086c7b2040d991696fe2eb99fff79f8dee8eae3dbf05c9a23385988debf8529351b763f
    0xc8cfab0c94c3a199b071b88a1a8f5ee4098e5bd0bd2bf914914c0d08e62ab2f5f7eaedbb4f148cedf4149d62f5106a73b540d63b451de621
    0xfa48cb96d402c1a4b37606e16a7ea963975703e96c5747ed391cd47ec7539e83b0da1c273d9b7ec33c097c728689fb67f6f180dd044bcce9
    0x105c82f0a2b05bdc55c8c47d51c06fbd043e56c7d63f62db5b404e945a79f38af94bf55dcf7a4322d5bbe0a71429fad075ff564f202b21c4
    0x4d93bd16cf6d39fba6bcfc8867b91f8343a867632d20298d4e2b58804c8b95a2bd0cd096b8116a503752fff66c8f9af1e8ad9503ccb3c6c1
    (-0x62ec6fd9beb650324a23999fe3f1700ba14d696d58b1c0aea0c10d4a7d0a2d69bc16ae9755f37d79ea02df444e9bfca26d499d74d414696c)
    0x524e30ee83186a849c60d7f9dbc14072c65d8def1886b2f1e7073de574947e4403f5ffb459c179001513aaca6d242ecb92db204e281ffdb26553e949df523fee8ff29429f1a6c23f5f5db58232b48c6c09162e0b3bead93f4b2e1ca3e644d43c245c03ad24b04c7b9a51966c2e57a17a); [exact even_P10|apply byte_list; vm_compute; reflexivity|vm_compute; reflexivity].
Qed.
Lemma even_P11 : even_tw P11. Proof. rewrite <- (proj1 step_11). apply even_padd; [exact even_P10|exact even_D]. Qed.
Definition zx12 : Z := 0xc640528788a10339e3f806ed4c0af64f243377cbc5aa229498a33e70a4e14e71f63ef5e69fa5893de74e16276d9aece987d74f892d695caf.
Definition zy12 : Z := 0xf4e74d72c08a548275a0c6390fecb6d0d022ae7876f78a69275245a3908f39ed4a5b2f615a2c8d4537892284d1ad64be76c40ca7c917adf7.
Definition P12 : point := (of_Z zx12, of_Z zy12).
Lemma step_12 : padd tw_a tw_d P11 D = P12 /\ decaf_encode P12 = nth 12 decaf_vectors [].
Proof.
  apply (vec_ok zx11 zy11
    0xabd0d35c75f74c37fce1352a8d32ad545e879e437919b270d96d4919c3db8ad49ffd4127581100721341fdbfce2f24e3bc226b259db8675d
    0x1a907df252a96de10e276ecd3988fef80fa4563a27feb973d87bc9c766be4eee6ccfe5faadab1771520df4b0924409b519b5d9a100a803f0 zx12 zy12
    0x179fb7263c8abea4bccb760829c73e374599291a87cb6dba542210e29965c6fa9ce05c763a61bebf5ab72f82cf357f2a59ed84f6f72e9cad
    0xf0b60cc595d9f3d6af6fcdc3b448f85912461f46c1b34481875f676896a24a9277ac7a9421b8a80a2cb5b269e34a5c1c8c1a41950db9abd9
    0x963a6ce79d6af6c0cb167289e0665fb5f1c40d5842c4862085913ac1bb65df6eaafe22c809156081c97b92311db81a661302ec1f14093978
    0x105c82f0a2b05bdc55c8c47d51c06fbd043e56c7d63f62db5b404e945a79f38af94bf55dcf7a4322d5bbe0a71429fad075ff564f202b21c4
    0x1cdbf5aa3aee7387d1affbeae93eb7b549ef10684e5e51f6211f5e9bf42c08f30ca70b97f41667f79a972dcb5a1272d2c3c88c02387e00b7
    0x3d95f06d71a7edb9623a4c0bc01066ba826cd3a4d20de203ba90d87286f4896b1e1567140fa9940dad3ebb38291d3d3086f9e2b28ced9a73
    0x6d855c71420784a6807830bd0498d160758aa9f3a2eb2395d02cfa8beb9aa674dd648dfccfaa195c86d891cc7d620e5b769a6563af69ce9b
    0xbda86eaddd18a2d4a28fa70e60c755f697d80dd4934c87433b88abaad885d9cf3aaed043af8a9a9266499498852f0b5dbe659b86382aecd4
    0x48ce49959cd45cddf3d45084c6b80c6c5a1c464f9bd4eeab4e7251e5331f65504f5b5f7b4960a76f28d70469c69243eb65c2cc88d21ea1b1
    (-0x8a0a55498962c7fb5ba4b4efc3d6c7ae6248225c91572f72700524254c229c2fd464b3a07353400ad9bda457e7f063abebb127cd589188c6)
    0x8fcd6390a337c29b287248a131a313ccf37c688e4ae07dce09c9721b19b6e9f85fbe5e29208e86259996b8d94ea3e502cc5580f1d94916fd21c41d409b4cba31f2b68b9af4630a9397b00d92ebbc7ef00ad2c72bf57e11e8e7441d1e363af09406604b65c4ba0b2213fecfbddfc5a438); [exact even_P11|apply byte_list; vm_compute; reflexivity|vm_compute; reflexivity].
Qed.
Lemma even_P12 : even_tw P12. Proof. rewrite <- (proj1 step_12). apply even_padd; [exact even_P11|exact even_D]. Qed.
Definition zx13 : Z := 0xb74aa2bf2dd66c1874d1c167e34e2f3ec069742d83721081b6c90771b145fd1e952564605b68ba287fd9f499633de96299361ffe58394f60.
Definition zy13 : Z := 0x5436b19552c2b31bfe9b68309b10ab5d94857220e1e70702f176de4122fdfbb6854ddea87b97165e0d909117d2a3111206b7bc20d8f53512.
Definition P13 : point := (of_Z zx13, of_Z zy13).
Lemma step_13 : padd tw_a tw_d P12 D = P13 /\ decaf_encode P13 = nth 13 decaf_vectors [].
Proof.
  apply (vec_ok zx12 zy12
    0x179fb7263c8abea4bccb760829c73e374599291a87cb6dba542210e29965c6fa9ce05c763a61bebf5ab72f82cf357f2a59ed84f6f72e9cad
    0xf72ff3bdaef0976514c825bd5190d7cad1b8e1ed3780911536b4fe1423d955443223a4368f6f84dfd0d4858c8b3a64b8092051dc485828be zx13 zy13
    0x2027dad3987e3f4a5a747f43e737ed70454c9018bf983102581014e83424721cf085a64987d2d82ecc83fc8955e87d016d4d5c83ae4db9b1
    0x2d2cbc36886cd4518a3e02f0b657f26f7db87ab478a41397b5ac662dc807c5f725fbafb63b08d72f0ff81b2f289514ddb2acad7523d1861b
    0xca76c2f9b295e0ec489485f31aa3da54516704d877cac5f894ce1fa7738fe6e5c5d6acbb8cceca48c61fd505f6fa09ce4fe31c68e127693c
    0xbda86eaddd18a2d4a28fa70e60c755f697d80dd4934c87433b88abaad885d9cf3aaed043af8a9a9266499498852f0b5dbe659b86382aecd4
    0x3f7cfa930cdec84dd98d9830eae86be95513c05e74f19371a621b48ac276e958e46f73e6a2474a3dd37fd09c1883da5eef8d17ab14df875
    0x307e975a5efafa1a9754467b09b6dc734b07ae3568f00abe64e0cefff7e6d9195efb55201ab75f29789ce79c046d2802e2660e9f6a236e44
    0x133b55bbf68c4a8239e5001af5a3768e4d0b5f5e496716d0d9ff619a6db24a25bab06af9f2fd961597853ebf7f5645117301f64d777b8a73a
    0x3c4ba64a93963d978e8cdf4dc2d2053af021aba27af587e7643fc31f7ddb26f65c07a8ee6f1ab8f5de759cc8f60838661ef03e8ba5f744f1
    (-0x7b4308736870473eef0a4a121f4ee5d1c7f1436556e679dda3c5f694c652f1242acac63882b6f5c127a702ca1603f60b6435d2ef2ef9e2d8)
    (-0x1f59a8424171e3e6c01ad666de1fa72f82dbfc8d60172e78743cba05fa40b4460141ee2cdf23953af3f5390ff46af5c057052543ed9ca102)
    0x778e9af42917400e71ac3472dfe397ee07b752e593fd13b3561edebda636d34c1ecb959fd3e5d6b97502dbb6050ac1be32e28aeb60120a7e5e4bea50a47d10b863cdb684689724e78795ceb23707aed60880706f258126a5df0bcd14fd0a8713774fe23274ea98f2f816bfe00b2471a); [exact even_P12|apply byte_list; vm_compute; reflexivity|vm_compute; reflexivity].
Qed.
Lemma even_P13 : even_tw P13. Proof. rewrite <- (proj1 step_13). apply even_padd; [exact even_P12|exact even_D]. Qed.
Definition zx14 : Z := 0xa715b82f17b39a69e12d24bd8608ab6f291beea31353380455ac86abd4385253101145f584be77e0fa295259d13418e204c1740a57197a23.
Definition zy14 : Z := 0x6c268bfa6e007d695b33ce3f8292cf4bb4b56415bb4c1813161afa05f14b69161d082c2b5495e04d76636719971e523855290eb7c17115cc.
Definition P14 : point := (of_Z zx14, of_Z zy14).
Lemma step_14 : padd tw_a tw_d P13 D = P14 /\ decaf_encode P14 = nth 14 decaf_vectors [].
Proof.
  apply (vec_ok zx13 zy13
    0x2027dad3987e3f4a5a747f43e737ed70454c9018bf983102581014e83424721cf085a64987d2d82ecc83fc8955e87d016d4d5c83ae4db9b1
    0x5095c447709ac6d054169959bf9262bf671a7805115be5df1e73bf620453af4199b325e25e39511c20017768e267796e805a164e12aff87f zx14 zy14
    0x6fc7c79c17b9dedc268ab823c01e41c9e1e8a60c3b4de87bae3ec25ab2dab81ca3da57df81f40c21ee61c63c1caabc199cd6cb04acb70fe7
    0xf3c6157b0f502db27bafb37ba00cd2d02b3c51b33783435efa4944936ad2a609f6d901bd854cdb2b5b63a0eb2d9834f6282af3bfda982ba7
    0x2ad14eb8c452fcfa401c20b849dc4a7fbc68689ea48ae4a75e37a06e174b2d2568140f6bc70b136e2df1465a22710a0fcb1a22168761b0dc
    0x3c4ba64a93963d978e8cdf4dc2d2053af021aba27af587e7643fc31f7ddb26f65c07a8ee6f1ab8f5de759cc8f60838661ef03e8ba5f744f1
    0x566ac2c04619dd0eaf7602074854f2bd6d271ce338a518785fb3d0efa8d9f1b061e82619a93dd3b193ef75be21eb80c2cc2b99c8ad96902
    0x54c2ef609ccdb50cd4c4c4e193f4678783bc470a15b3ef37dd1274c0091016be356817a64fd70393260949ac5bdf4ee872454d3e01c73800
    0xa973f77f7574762164ad00cbdc688cfc0990e1ba28baf3e1d51572e4cce6687046b81a9b8c8e6ce8a8ca42895ecd88e5d786af0ddf1bb690
    0x46965249730060a7db7fff83181d672d772985d5f05ac3fa5d8532bf15d5f4ae075f8a96cb421ef1e0b714cc94c09148196f9949e0f1dd03
    0x7b144de7ae1160c909181122528b0214cc4d8d769ec5ca78f813292e86a6e4791c49415c34ad836f7557f2f6812ae815f3b1e44a9559d9d9
    (-0x198e5b209d6a7a393862828ff69fcbf3c6fc7c5d9724d0a511072216f027fe42c7e19f5c51946979dc55c946c097ceb11a35ca24e87b3836)
    0x10c8316d94c76de017cac8b153c2b1f4a6d8be9697ba5f243b3aba42da246fefbac4d217e883648d9dba624182c49ce2ed34eefbbf4d87767db58c018241b48d2a7e6f8f3e59f13a6038cfb988b2a0cefdca7d85273562bbb972ae86e745b19afad4be6d232c59754c7c075937a27606); [exact even_P13|apply byte_list; vm_compute; reflexivity|vm_compute; reflexivity].
Qed.
Lemma even_P14 : even_tw P14. Proof. rewrite <- (proj1 step_14). apply even_padd; [exact even_P13|exact even_D]. Qed.
Definition zx15 : Z := 0xc52b7ffa80416a0d278e0f1ee2c3af271bb4bea2ca8099ec93d095c4bdb375ddc7882dc6b5e9196719714241912251599f6545e9f4d28583.
Definition zy15 : Z := 0x95f52d9f5d227f6639c4718da6210e80f4e188bc6baf23c32e33fda3274cb002f95222447af16e680061cf81a42e800b5feb550f1f74e39f.
Definition P15 : point := (of_Z zx15, of_Z zy15).
Lemma step_15 : padd tw_a tw_d P14 D = P15 /\ decaf_encode P15 = nth 15 decaf_vectors [].
Proof.
  apply (vec_ok zx14 zy14
    0x6fc7c79c17b9dedc268ab823c01e41c9e1e8a60c3b4de87bae3ec25ab2dab81ca3da57df81f40c21ee61c63c1caabc199cd6cb04acb70fe7
    0x9f4a4087a98069e536e3529895ca77cae6aa1238fc1f3f9729f83ff74e913eb4a46fc81afe3dada01ea043c532ba7bf79da0aee06fc07792 zx15 zy15
    0x669dad52c55037fecd4afa0d412edfe97ff7a3b7f307a03206a815504a18241e389f3125c571d99abb331f51cd7eab19c2d5e6e6e6ae43d8
    0x5579081c14e75ccf8f0c98865b389ce8292d65acd364f80e125e5eefecf951344cd25ac5fc6983d13f0b1f0c6a7e3a578357855380217f1b
    0x338e978bb72d9c29e79897171acec504ffe6472df0acc40374d00f08265444856da54f896dbce09c58fa88ac07e58005bcac8814dd8f28c8
    0x46965249730060a7db7fff83181d672d772985d5f05ac3fa5d8532bf15d5f4ae075f8a96cb421ef1e0b714cc94c09148196f9949e0f1dd03
    0x12c67b1dded062f0885748b57fe424b95e9ff731437dfa8cfe1db150f32e938e4559f8dd13570b80712e9951f0205b9e7779f1088bcc2657
    0x1238238aff76de4f49a8a2d01c95020077f4047947e8ddc972322be2e4793fe304dace4a912d6473c90824635a230f9e2f6c89570fb9bb8d
    0xe90d67d93aa02a9f5a563eec770eec5705581900da0d8ccca2c8657489b298774aee2ab2b307cda1d8d5ad3b468069a9421329946b26ae41
    0x737f2741aaa1b5d99f0ec3c975f8dd885cfedd5764bc842e4cf0959eef873fde01b4a6beafde449198837194dc074e51885d4744cf2e2e7b
    (-0x7b5261c076d718d6eb37c190758f02d9639d3e8a38170d9312f841dc2ef1cbdf80dcd436b9df9fa6b10cfdc0ecc97ebe09965ae7fb846bcf)
    (-0x33ea3fee0d44f0a2619104c78305015b39e7c7c1131e235ca5cd4c594224ca8ff1a0598bcf319cf0dad21bd4e097bf4c66ee835d663b278)
    0x9bb071b0b4a9714739398056ae9f8845e611e34867360a49315bf9fb0b0957acbb8489524cf4d719ed1c9c8867097246cdeec77d9780644e9a0a57303ff6a606cc0d1bfed9402221ec18d1e8f4fa6ae37f537eefd96633220bc2630d5a11958174e66bab9bed5c6877870bc13003d5a); [exact even_P14|apply byte_list; vm_compute; reflexivity|vm_compute; reflexivity].
Qed.
Lemma even_P15 : even_tw P15. Proof. rewrite <- (proj1 step_15). apply even_padd; [exact even_P14|exact even_D]. Qed.

(** What the loop of the test needs of a list of encodings, from the point that it has reached. *)
Fixpoint multiples (l : list (list Z)) (Q : point) : Prop :=
  match l with [] => True | b :: l' => decaf_encode Q = b /\ multiples l' (padd tw_a tw_d Q D) end.
Lemma mult_step : forall b l Q R, decaf_encode Q = b -> padd tw_a tw_d Q D = R -> multiples l R -> multiples (b :: l) Q.
Proof. intros b l Q R E <- H. split; assumption. Qed.
Lemma vectors_ok : multiples decaf_vectors pzero.
Proof.
  apply (mult_step _ _ pzero D encode_zero); [rewrite D_pair; apply EdwardsTheory.padd_0_l|].
  apply (mult_step _ _ D P2 encode_D two_D). apply (mult_step _ _ P2 P3 encode_2 three_D).
  apply (mult_step _ _ P3 P4 encode_3 (proj1 step_4)).
  apply (mult_step _ _ P4 P5 (proj2 step_4) (proj1 step_5)). apply (mult_step _ _ P5 P6 (proj2 step_5) (proj1 step_6)).
  apply (mult_step _ _ P6 P7 (proj2 step_6) (proj1 step_7)). apply (mult_step _ _ P7 P8 (proj2 step_7) (proj1 step_8)).
  apply (mult_step _ _ P8 P9 (proj2 step_8) (proj1 step_9)). apply (mult_step _ _ P9 P10 (proj2 step_9) (proj1 step_10)).
  apply (mult_step _ _ P10 P11 (proj2 step_10) (proj1 step_11)). apply (mult_step _ _ P11 P12 (proj2 step_11) (proj1 step_12)).
  apply (mult_step _ _ P12 P13 (proj2 step_12) (proj1 step_13)). apply (mult_step _ _ P13 P14 (proj2 step_13) (proj1 step_14)).
  apply (mult_step _ _ P14 P15 (proj2 step_14) (proj1 step_15)). apply (mult_step _ _ P15 _ (proj2 step_15) eq_refl). exact I.
Qed.
