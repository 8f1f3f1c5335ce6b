(** The order of the twist of Curve448 is four times a prime: a certificate. *)
Require Import ZArith Znumtheory List Lia.
From Verif Require Import SpecParams SpecTwist NumTheory HexNum Pock Bls.
Import ListNotations.
Open Scope Z_scope.

Lemma prime_701527 : prime 701527.
Proof. apply (trial_prime 701527 837); [lia | vm_compute; reflexivity | vm_compute; reflexivity]. Qed.

Lemma prime_3203 : prime 3203.
Proof. apply (trial_prime 3203 56); [lia | vm_compute; reflexivity | vm_compute; reflexivity]. Qed.

Lemma prime_9437362120201 : prime 9437362120201.
Proof.
  apply (pock_check_ok 9437362120201 14 x7 x2 (701527%positive, 13452600%positive, 5035631345939)
    [(3203%positive, 2946413400%positive, 5625863072589)]).
  - vm_cast_no_check (eq_refl true).
  - intros q H. cbn [map fst In] in H. destruct H as [<-|H]; [exact prime_701527|]. destruct H as [<-|H]; [exact prime_3203|]. contradiction.
Qed.

Lemma prime_431 : prime 431.
Proof. apply (trial_prime 431 20); [lia | vm_compute; reflexivity | vm_compute; reflexivity]. Qed.

Lemma prime_239 : prime 239.
Proof. apply (trial_prime 239 15); [lia | vm_compute; reflexivity | vm_compute; reflexivity]. Qed.

Lemma prime_550480097 : prime 550480097.
Proof.
  apply (pock_check_ok 550480097 11 xf x2 (431%positive, 1277216%positive, 510016607)
    [(239%positive, 2303264%positive, 366121100)]).
  - vm_cast_no_check (eq_refl true).
  - intros q H. cbn [map fst In] in H. destruct H as [<-|H]; [exact prime_431|]. destruct H as [<-|H]; [exact prime_239|]. contradiction.
Qed.

Lemma prime_186062272787 : prime 186062272787.
Proof.
  apply (pock_check_ok 186062272787 13 x5 x2 (550480097%positive, 338%positive, 14635769955)
    []).
  - vm_cast_no_check (eq_refl true).
  - intros q H. cbn [map fst In] in H. destruct H as [<-|H]; [exact prime_550480097|]. contradiction.
Qed.

Lemma prime_8423 : prime 8423.
Proof. apply (trial_prime 8423 91); [lia | vm_compute; reflexivity | vm_compute; reflexivity]. Qed.

Lemma prime_661 : prime 661.
Proof. apply (trial_prime 661 25); [lia | vm_compute; reflexivity | vm_compute; reflexivity]. Qed.

Lemma prime_77946443 : prime 77946443.
Proof.
  apply (pock_check_ok 77946443 10 xd x2 (8423%positive, 9254%positive, 6810290)
    [(661%positive, 117922%positive, 35770574)]).
  - vm_cast_no_check (eq_refl true).
  - intros q H. cbn [map fst In] in H. destruct H as [<-|H]; [exact prime_8423|]. destruct H as [<-|H]; [exact prime_661|]. contradiction.
Qed.

Lemma prime_1049 : prime 1049.
Proof. apply (trial_prime 1049 32); [lia | vm_compute; reflexivity | vm_compute; reflexivity]. Qed.

Lemma prime_277 : prime 277.
Proof. apply (trial_prime 277 16); [lia | vm_compute; reflexivity | vm_compute; reflexivity]. Qed.

Lemma prime_3486877 : prime 3486877.
Proof.
  apply (pock_check_ok 3486877 9 xb x2 (1049%positive, 3324%positive, 375263)
    [(277%positive, 12588%positive, 2441953)]).
  - vm_cast_no_check (eq_refl true).
  - intros q H. cbn [map fst In] in H. destruct H as [<-|H]; [exact prime_1049|]. destruct H as [<-|H]; [exact prime_277|]. contradiction.
Qed.

Lemma prime_84869 : prime 84869.
Proof. apply (trial_prime 84869 291); [lia | vm_compute; reflexivity | vm_compute; reflexivity]. Qed.

Lemma prime_5 : prime 5.
Proof. apply (trial_prime 5 2); [lia | vm_compute; reflexivity | vm_compute; reflexivity]. Qed.

Theorem prime_ell_twist : prime ell_twist.
Proof.
  apply (bls_check_ok ell_twist 115 xb x3 448628759348557303603973010189850291560373414978895681741871564613607162720629966903445918%positive
    (Node (Node (Leaf 77946443 29937002075398836808123593779105186813465995965299297753003091387639228023780818386335385814563483537348905472003687106483719607027885)
     (Leaf 186062272787 94465004600382647336941600154866116594424917629048921309660619872393003095619963510803033976360390538862419710398993312640854452464189))
     (Node (Leaf 9437362120201 148830307210166829633752164784115205414201033637452269925130783668262999108661892079614605772316379294590979590020401931108809282190102)
     (Node (Leaf 3486877 25681309000108440446353762686308465859101055510202889063045138219809292345205114421621071359970298856334334512668537127883480734515516)
     (Node (Node (Leaf 2 144524778453825101667963745292089722572849317489300624953912810039674827989395688645093847111211335318494733066116242707257393921124875)
     (Leaf 5 69293752969360889987490726708122143864446795779964167428399853455176091472486046767139057952358086294860731575357840769245185589273245))
     (Leaf 84869 2234759997667422283409247676059930949678501299331053132732088466531541598107983149512548265185410611598730942065407208006614071530859)))))
    [9437362120201%positive; 186062272787%positive; 77946443%positive; 3486877%positive; 84869%positive; 5%positive]
    116745578972003643635208790691228032433309634).
  - vm_cast_no_check (eq_refl true).
  - intros q H. cbn [map fst In] in H. destruct H as [<-|H]; [exact prime_9437362120201|]. destruct H as [<-|H]; [exact prime_186062272787|]. destruct H as [<-|H]; [exact prime_77946443|]. destruct H as [<-|H]; [exact prime_3486877|]. destruct H as [<-|H]; [exact prime_84869|]. destruct H as [<-|H]; [exact prime_5|]. contradiction.
Qed.
