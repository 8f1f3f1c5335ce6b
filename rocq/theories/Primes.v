(** Primality of the field prime and of the group order, by Pocklington certificates. *)
Require Import ZArith Znumtheory List Lia.
From Verif Require Import SpecParams NumTheory HexNum HexP Pock.
Import ListNotations.
Open Scope Z_scope.

Lemma prime_271 : prime 271.
Proof. apply (trial_prime 271 16); [lia | vm_compute; reflexivity | vm_compute; reflexivity]. Qed.

Lemma prime_379979 : prime 379979.
Proof. apply (trial_prime 379979 616); [lia | vm_compute; reflexivity | vm_compute; reflexivity]. Qed.

Lemma prime_97859369123353 : prime 97859369123353.
Proof.
  apply (pock_check_ok 97859369123353 15 x7 x2 (271%positive, 361104683112%positive, 77304057623300)
    [(379979%positive, 257538888%positive, 62086226446665)]).
  - vm_cast_no_check (eq_refl true).
  - intros q H. cbn [map fst In] in H. destruct H as [<-|H]; [exact prime_271|]. destruct H as [<-|H]; [exact prime_379979|]. contradiction.
Qed.

Lemma prime_167773885276849215533569 : prime 167773885276849215533569.
Proof.
  apply (pock_check_ok 167773885276849215533569 23 xf x3 (97859369123353%positive, 1714438656%positive, 25762882824633969545765)
    []).
  - vm_cast_no_check (eq_refl true).
  - intros q H. cbn [map fst In] in H. destruct H as [<-|H]; [exact prime_97859369123353|]. contradiction.
Qed.

Lemma prime_217003 : prime 217003.
Proof. apply (trial_prime 217003 465); [lia | vm_compute; reflexivity | vm_compute; reflexivity]. Qed.

Lemma prime_1764234391 : prime 1764234391.
Proof.
  apply (pock_check_ok 1764234391 11 x9 x2 (217003%positive, 8130%positive, 1295979212)
    []).
  - vm_cast_no_check (eq_refl true).
  - intros q H. cbn [map fst In] in H. destruct H as [<-|H]; [exact prime_217003|]. contradiction.
Qed.

Lemma prime_34741861125639557 : prime 34741861125639557.
Proof.
  apply (pock_check_ok 34741861125639557 17 x3 x2 (1764234391%positive, 19692316%positive, 7991288349382103)
    []).
  - vm_cast_no_check (eq_refl true).
  - intros q H. cbn [map fst In] in H. destruct H as [<-|H]; [exact prime_1764234391|]. contradiction.
Qed.

Lemma prime_36131535570665139281 : prime 36131535570665139281.
Proof.
  apply (pock_check_ok 36131535570665139281 20 xf x2 (34741861125639557%positive, 1040%positive, 14995853354371517183)
    []).
  - vm_cast_no_check (eq_refl true).
  - intros q H. cbn [map fst In] in H. destruct H as [<-|H]; [exact prime_34741861125639557|]. contradiction.
Qed.

Lemma prime_596242599987116128415063 : prime 596242599987116128415063.
Proof.
  apply (pock_check_ok 596242599987116128415063 23 x9 x3 (36131535570665139281%positive, 16502%positive, 181657310204624014265207)
    []).
  - vm_cast_no_check (eq_refl true).
  - intros q H. cbn [map fst In] in H. destruct H as [<-|H]; [exact prime_36131535570665139281|]. contradiction.
Qed.

Lemma prime_116989 : prime 116989.
Proof. apply (trial_prime 116989 342); [lia | vm_compute; reflexivity | vm_compute; reflexivity]. Qed.

Lemma prime_1255525949 : prime 1255525949.
Proof.
  apply (pock_check_ok 1255525949 11 xb x2 (116989%positive, 10732%positive, 116881871)
    []).
  - vm_cast_no_check (eq_refl true).
  - intros q H. cbn [map fst In] in H. destruct H as [<-|H]; [exact prime_116989|]. contradiction.
Qed.

Lemma prime_61 : prime 61.
Proof. apply (trial_prime 61 7); [lia | vm_compute; reflexivity | vm_compute; reflexivity]. Qed.

Lemma prime_6197 : prime 6197.
Proof. apply (trial_prime 6197 78); [lia | vm_compute; reflexivity | vm_compute; reflexivity]. Qed.

Lemma prime_1335912079 : prime 1335912079.
Proof.
  apply (pock_check_ok 1335912079 11 x1 x2 (61%positive, 21900198%positive, 531808533)
    [(6197%positive, 215574%positive, 1289910598)]).
  - vm_cast_no_check (eq_refl true).
  - intros q H. cbn [map fst In] in H. destruct H as [<-|H]; [exact prime_61|]. destruct H as [<-|H]; [exact prime_6197|]. contradiction.
Qed.

Lemma prime_32061889897 : prime 32061889897.
Proof.
  apply (pock_check_ok 32061889897 12 x7 x2 (1335912079%positive, 24%positive, 10567429422)
    []).
  - vm_cast_no_check (eq_refl true).
  - intros q H. cbn [map fst In] in H. destruct H as [<-|H]; [exact prime_1335912079|]. contradiction.
Qed.

Lemma prime_25136521679249 : prime 25136521679249.
Proof.
  apply (pock_check_ok 25136521679249 15 xf x2 (32061889897%positive, 784%positive, 23537425742069)
    []).
  - vm_cast_no_check (eq_refl true).
  - intros q H. cbn [map fst In] in H. destruct H as [<-|H]; [exact prime_32061889897|]. contradiction.
Qed.

Lemma prime_37414057161322375957408148834323969 : prime 37414057161322375957408148834323969.
Proof.
  apply (pock_check_ok 37414057161322375957408148834323969 32 xf x3 (1255525949%positive, 29799509274278150309586432%positive, 33597850543153835543915982222921329)
    [(25136521679249%positive, 1488434145294210412032%positive, 31926051783824557070184543026564933)]).
  - vm_cast_no_check (eq_refl true).
  - intros q H. cbn [map fst In] in H. destruct H as [<-|H]; [exact prime_1255525949|]. destruct H as [<-|H]; [exact prime_25136521679249|]. contradiction.
Qed.

Lemma prime_p : prime p.
Proof.
  apply (p_check_ok x2 (167773885276849215533569%positive, 4332251846562570601107677771607432108690526969151039496604611103263655041927879267626101432742043482018000200702%positive, 501788639088368826987400606481767918276057647070744111966357515498496197208259609929578546273395592909823544835784940147559659365465460)
    [(596242599987116128415063%positive, 1219031857688988912334905182715864094480042882203318147148725685396846576796935482348317513274704115533742072626%positive, 622143034522204649195295391496844845148580674104142999054667679714261380717200767300452778319734914841204185644938301518028430773008897); (37414057161322375957408148834323969%positive, 19426888700191349149180236204466513925105598197732169000225187598664971696327725921035257535073557502%positive, 519518080572253603367051247665846755713605907580011593346876370765869096000338358463558345755733082510164841518241698999535429907019721)]).
  - vm_cast_no_check (eq_refl true).
  - repeat (constructor; [cbn; intuition discriminate|]). constructor.
  - reflexivity.
  - intros q H. cbn [map fst In] in H. destruct H as [<-|H]; [exact prime_167773885276849215533569|]. destruct H as [<-|H]; [exact prime_596242599987116128415063|]. destruct H as [<-|H]; [exact prime_37414057161322375957408148834323969|]. contradiction.
Qed.

Lemma prime_816763 : prime 816763.
Proof. apply (trial_prime 816763 903); [lia | vm_compute; reflexivity | vm_compute; reflexivity]. Qed.

Lemma prime_9801157 : prime 9801157.
Proof.
  apply (pock_check_ok 9801157 9 x3 x2 (816763%positive, 12%positive, 6032340)
    []).
  - vm_cast_no_check (eq_refl true).
  - intros q H. cbn [map fst In] in H. destruct H as [<-|H]; [exact prime_816763|]. contradiction.
Qed.

Lemma prime_95024118539459 : prime 95024118539459.
Proof.
  apply (pock_check_ok 95024118539459 15 x5 x2 (9801157%positive, 9695194%positive, 20064454263263)
    []).
  - vm_cast_no_check (eq_refl true).
  - intros q H. cbn [map fst In] in H. destruct H as [<-|H]; [exact prime_9801157|]. contradiction.
Qed.

Lemma prime_760192948315673 : prime 760192948315673.
Proof.
  apply (pock_check_ok 760192948315673 16 x7 x2 (95024118539459%positive, 8%positive, 516353478713664)
    []).
  - vm_cast_no_check (eq_refl true).
  - intros q H. cbn [map fst In] in H. destruct H as [<-|H]; [exact prime_95024118539459|]. contradiction.
Qed.

Lemma prime_163131120638915058577002756917 : prime 163131120638915058577002756917.
Proof.
  apply (pock_check_ok 163131120638915058577002756917 28 x3 x2 (760192948315673%positive, 214591730955092%positive, 34626220927997429776908752348)
    []).
  - vm_cast_no_check (eq_refl true).
  - intros q H. cbn [map fst In] in H. destruct H as [<-|H]; [exact prime_760192948315673|]. contradiction.
Qed.

Lemma prime_392279121964710096549298451519713063 : prime 392279121964710096549298451519713063.
Proof.
  apply (pock_check_ok 392279121964710096549298451519713063 33 x9 x2 (163131120638915058577002756917%positive, 2404686%positive, 226897559884284890032501554533485555)
    []).
  - vm_cast_no_check (eq_refl true).
  - intros q H. cbn [map fst In] in H. destruct H as [<-|H]; [exact prime_163131120638915058577002756917|]. contradiction.
Qed.

Lemma prime_64817 : prime 64817.
Proof. apply (trial_prime 64817 254); [lia | vm_compute; reflexivity | vm_compute; reflexivity]. Qed.

Lemma prime_547972593843380542316719287015009101629889568888367769396279985548530313239 : prime 547972593843380542316719287015009101629889568888367769396279985548530313239.
Proof.
  apply (pock_check_ok 547972593843380542316719287015009101629889568888367769396279985548530313239 66 x9 x2 (392279121964710096549298451519713063%positive, 1396894617023938425360039399905672447226%positive, 265648718189533152524584397454743818207761197165244700867597259935121215957)
    [(64817%positive, 8454149279407879758654662928167133647498180552761895326785873853287414%positive, 502428022538299746810766216077882547693482993297107446636993354684990287813)]).
  - vm_cast_no_check (eq_refl true).
  - intros q H. cbn [map fst In] in H. destruct H as [<-|H]; [exact prime_392279121964710096549298451519713063|]. destruct H as [<-|H]; [exact prime_64817|]. contradiction.
Qed.

Lemma prime_ell : prime ell.
Proof.
  apply (pock_check_ok ell 115 x5 x2 (547972593843380542316719287015009101629889568888367769396279985548530313239%positive, 331603593164072175413420744103110986991591440014479961204702%positive, 22630274544243124051140324418567187476946599927351534434095228323818312392552110047759230849729364428452097198995659163424748977209645)
    []).
  - vm_cast_no_check (eq_refl true).
  - intros q H. cbn [map fst In] in H. destruct H as [<-|H]; [exact prime_547972593843380542316719287015009101629889568888367769396279985548530313239|]. contradiction.
Qed.
