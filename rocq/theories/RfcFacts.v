(** The concrete cases beside the theorems of PropsRfc.v: the encodings of 2B and 3B (RFC 9496, appendix B.1). *)
Require Import ZArith List Bool.
From Verif Require Import Base BaseProofs SpecParams SpecField SpecCurve SpecEncoding SpecDecaf FieldTheory CurveTheory FieldBackend Backends BackendLaws
  ScalarModel TwistedModel DecafModel PointSpec TwistedProofs TwistedMain EdwardsExpr DecafExpr RfcExpr DecafTheory DecafGroup DecafRun DecafMain DecafFacts
  EdwardsProofs DecafNum DecafRfc RfcVectors RfcMain.
Import ListNotations.
Open Scope F_scope.
Open Scope res_scope.
Local Opaque fadd fsub fmul fopp fdiv finv fpow of_Z padd pmul pzero fsqrt D Dx Dy dc_compress dc_decompress dc_equals dcexp_run rfc_decode rfc_encode
  decaf_encode decaf_decode phi tw_affine.

Lemma nz : forall x : F, feqb x 0 = false -> x <> 0. Proof. intros x H E. rewrite E in H. vm_compute in H. discriminate H. Qed.
Lemma D_z : D = (of_Z dx, of_Z dy). Proof. rewrite D_pair, dx_eq, dy_eq. reflexivity. Qed.
Definition zx2 : Z := 0x74e9dd52d1810b0c337f93b324d1d9bd95ccc736a2f8ea62e2bce16eca611cb550d150fadc4e769de751c4a9487e0e997134e32ee005128a.
Definition zy2 : Z := 0x5e450dc284cf4397f22934353384be15209d7069c9c5a69d045ef70f15f74e73f1e8315cec07ce02191d995ad15df28d327cfbaef7437683.
Definition P2 : point := (of_Z zx2, of_Z zy2).
Lemma step_2 : padd tw_a tw_d D D = P2 /\ decaf_encode P2 = vector_2.
Proof.
  pose proof (vec_ok dx dy
    0x6d3669e173c6a450e23d5682a9ffe1ddc2b86da60f794be956382384a319b57519c9854dde98e342140362071833f4e093e3c816dc198105
    0xbc757eaaedbd9cc9c1ab17ff4eecb3ffd7c16eba256624cd370b93ff5bb00bb22f0519ee508128cd6f632c2eb0968a0a9c7f4deb23914be1 zx2 zy2
    0xdba6e56e4a9b37bc0de8217aabc47dfbaaf41f7abe17b59cf6698f3dc65358bd6b1a729130f6268fdc8726699e9fa819ac5951bed8ed9c89
    0xd76212977a85a1cf1448ed4317bcb9fae2661a180328232d6b7071100028a5f9ff697afa585afe51c57ee545cbf76a9316db5979f25505c8
    0x448dfc840aa2e026c549e279d1dd30fd383a6fcb62c39866a2eb09071e18cc0db5c90b56a8a6cc58206d42b699c7f19d57609c3459f9bbb0
    0x42846f0a7821436a468360983c651204029321b828263a61c9ea9215a319b57519c9854dde98e342140362071833f4e093e3c816dc198105
    0x125810d1ad601c2deb0945802e92dbefc62ed1347703ae8ac07aff8a39cddd94ce68eb0ff81854e024c450c6630de86b0664a1cdfaa2bf20
    0x2ef776d0ccbf2c782e775bbef4943a2bfc86aae79e0d4409e36c9c97ad908a2ed73cac5c004a7fa2504963c47ea62e41fb1e66199f12cbd4
    0xca88315f75380007623749e8c05441c38834e28f84cdc3e627356cc184afb782a8885506b3a86dd67d7918bb644ed0450828a14819c6f550
    0x2b0d6895c65e05540a00c5b8339f886e2750495f834b83954fdb768f086e7cb88197c3cf3b6282e5940e65eff96643c582b0077cdfab83eb
    0x7fd11a94ff2983896b943594e857d3e7168d769346c969faad8c9aaf89d2b5bc4a95a3cd2eee79ff67f4008a706b648344d2e3e843ca4625
    (-0x1bc6d288f12c97a433b2a602cc7ef2b771c56f8747f87d7637dbe4d58e1d48bdd3a475c4e0d57ceb0febad87b4573a66d13040163751d266)
    0x2d51e8b9d41d1a500332950a1762e7d8e0c5ab6a7b3532f5741bf1720daea8c51252dfdf8c887727ad7622d43d307eb3a7c1ba443104228cd58e77d3deef599510b3e46fb8c42f0f157cf8a2e3fe036a729cb1aa1c28c60ce9d2da317e84430a20f33f816d0d4ef081bcb662d6a39787 vector_2) as V. rewrite <- D_z in V.
  apply V; [exact even_D|apply byte_list; vm_compute; reflexivity|vm_compute; reflexivity].
Qed.
Lemma even_P2 : even_tw P2. Proof. rewrite <- (proj1 step_2). apply even_padd; [exact even_D|exact even_D]. Qed.
Definition zx3 : Z := 0x1868374623eac9021a6150bea5a0288d0d88dfe254b2c76b1746ac9096ea76d7febe3f57d58d06961ce85f7f210df60a213d9a138ca5ec33.
Definition zy3 : Z := 0xbd6764f3867273aa2d353a6c67d3291a9cb4596e1ecc8367c24689da4b1d2e18b3cd1a415a946e63072d63ab46bb343ae6dadc0ca702fd9e.
Definition P3 : point := (of_Z zx3, of_Z zy3).
Lemma step_3 : padd tw_a tw_d P2 D = P3 /\ decaf_encode P3 = vector_3.
Proof.
  apply (vec_ok zx2 zy2
    0xdba6e56e4a9b37bc0de8217aabc47dfbaaf41f7abe17b59cf6698f3dc65358bd6b1a729130f6268fdc8726699e9fa819ac5951bed8ed9c89
    0x35a72059ff54e567067221784b41781003038a81ccedc9ca6fcf6820161ff46df151ac574462cc53de9c7ea09d555d2049585528e9987c4c zx3 zy3
    0x483920e5c3c38fc317e13b8599dbdf687573726aee540e97bef58ff52fd89e5ac291da18f3cc62522455a4e3eb97a360290e676ea01cff5f
    0xbfffc3c14d6a69e4104e6295b634f030c54bb67e3813ec49d95e4be85dd9fc3e6039df55b69572aac52da10e0da08be314b8e4253a5aeb20
    0x5c184a01c06e463e2fd8115e3eefc08d3f22e8d3b73c5eada3eb6413fdc4295ac690ce432b142d4d47920f7766b1517c3812c972391fa888
    0x2b0d6895c65e05540a00c5b8339f886e2750495f834b83954fdb768f086e7cb88197c3cf3b6282e5940e65eff96643c582b0077cdfab83eb
    0x24e4e2649a06a7a724c9be71d41a4472d4a002b22c4e1560f3562b9666a8997a09ce48a0b06521a258796672ed9cb18070d2883a6dd2e3d7
    0x66c691156216094dab32fe2f5bc309d9c9678c6e51343e19289ecc87521472e23c4d0298c17cb69f510795cceab43d3dc6a4cfd8251f9d6f
    0x9324210845cd161fbc3787b2113882f6c15282e17705a8c328afa6b0931f6694eab076557e36bc2bce7bb59feadeff1dcc3411b2b8c4018a
    0x120ecc5cf3121dd79a159468f213169c8c66660ad2e57a98348ad6e0dad67c2e21a397529484cfb6d744535edfec976faaabc098b9e0d0e5
    0x8dabf0d7e6a4a6ccf16530ee9a3c6d5ff16af591898635bdb68f60968881979cdace6585318a743181233b20e3dfa51ea7fc075f71384e2a
    (-0x3b3d371cb924ac72f889c3f2e2fb52c7db054b46efef218fa470638085bc15ea73488c87cd66c783f25e92612c69f4aa9d5bc84b51d46e0a)
    0x68000d6339c3f9ad0fcbb845f2fce4f9d177fe62d20019352387cedb593fbb513bc318fd453c3ce0bf8e9aa9f113800ae550aab6353d0e5c1c2b216470c56d1a95ee37ad77d31b043552509249bd2d59e8f24b643a09d053f08cdc2bc300d536aba26c1c37f27e2718e532f67dd2071f); [exact even_P2|apply byte_list; vm_compute; reflexivity|vm_compute; reflexivity].
Qed.
Lemma even_P3 : even_tw P3. Proof. rewrite <- (proj1 step_3). apply even_padd; [exact even_P2|exact even_D]. Qed.
Lemma two_D : padd tw_a tw_d D D = P2. Proof. exact (proj1 step_2). Qed.
Lemma three_D : padd tw_a tw_d P2 D = P3. Proof. exact (proj1 step_3). Qed.
Lemma encode_2 : decaf_encode P2 = vector_2. Proof. exact (proj2 step_2). Qed.
Lemma encode_3 : decaf_encode P3 = vector_3. Proof. exact (proj2 step_3). Qed.

Lemma none_of : forall B, shipped B -> forall b, bytes 56 b -> dc_decompress B b = Ok None -> rfc_decode b = None.
Proof.
  intros B S b Hb H. pose proof (decode_agrees B S b Hb) as A. destruct (rfc_decode b) as [R|]; [|reflexivity].
  destruct A as (P & E & _). rewrite H in E. discriminate E.
Qed.
Section WithB.
Variable B : backend.
Variable S : shipped B.
Theorem gen_agrees : exists R, rfc_decode rfc_generator = Some R /\ rfc_internal R /\ tw_valid B (dc_generator B) /\
  phi R = padd tw_a tw_d (tw_affine B (dc_generator B)) (tw_affine B (dc_generator B)) /\ rfc_encode R = rfc_generator /\
  rfc_decode (le_bytes 56 p) = None /\ rfc_decode (le_bytes 56 (p - 1)) = None /\ rfc_decode (le_bytes 56 1) = None /\ rfc_decode (le_bytes 56 4) = None.
Proof.
  destruct interop_gen as (R & E & H). exists R. split; [exact E|]. destruct (three_decaf B S) as (T & _ & V & _ & _ & EG & _). rewrite EG.
  pose proof (encode_interop R D H) as X. rewrite encode_D in X. destruct H as (HR & _ & HP).
  destruct (decode_cases B S) as (_ & N1 & N2 & N3 & N4).
  split; [exact HR|]. split; [exact V|]. split; [exact HP|]. split; [exact X|].
  split; [exact (none_of B S _ (le_bytes_bytes _ _) N1)|]. split; [exact (none_of B S _ (le_bytes_bytes _ _) N2)|].
  split; [exact (none_of B S _ (le_bytes_bytes _ _) N3)|exact (none_of B S _ (le_bytes_bytes _ _) N4)].
Qed.
Lemma run_encode : forall e P b, dcexp_ok e -> dcexp_val e = Some P -> even_tw P -> decaf_encode P = b ->
  obind (dcexp_run B e) (fun P => osome (dc_compress B P)) = Ok (Some b) /\ omap rfc_encode (rfc_val e) = Some b.
Proof.
  intros e P b He EP V Eb. rewrite (program_agrees B S e He). pose proof (program_interop e He) as H. rewrite EP in H.
  destruct (rfc_val e) as [R|]; [|contradiction]. cbn [orel omap] in *. rewrite (encode_interop R P H), Eb. split; reflexivity.
Qed.
Theorem vectors_agree :
  let enc e := obind (dcexp_run B e) (fun P => osome (dc_compress B P)) in
  let two := DAdd DGenerator DGenerator in
  let three := DAdd two DGenerator in
  enc two = Ok (Some vector_2) /\ omap rfc_encode (rfc_val two) = Some vector_2 /\
  enc three = Ok (Some vector_3) /\ omap rfc_encode (rfc_val three) = Some vector_3.
Proof.
  cbv zeta. destruct (run_encode (DAdd DGenerator DGenerator) P2 vector_2) as [X Y].
  - split; exact I.
  - cbn [dcexp_val omap2]. apply (f_equal Some). exact two_D.
  - exact even_P2.
  - exact encode_2.
  - destruct (run_encode (DAdd (DAdd DGenerator DGenerator) DGenerator) P3 vector_3) as [X' Y'].
    + repeat split; exact I.
    + cbn [dcexp_val omap2]. apply (f_equal Some). rewrite two_D. exact three_D.
    + exact even_P3.
    + exact encode_3.
    + split; [exact X|]. split; [exact Y|]. split; [exact X'|exact Y'].
Qed.
End WithB.
