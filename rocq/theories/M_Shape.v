(** Generated by tools/gen_tables.py: the text of composipy/pre_integrated_component/_S.py. *)
From Coq Require Import String List.
Import ListNotations.
Open Scope string_scope.
Open Scope list_scope.

(** _S.py:6-57 *)
Definition FXI : list string := [
  "0.25*xi**3 - 0.75*xi + 0.5";
  "0.125*xi**3 - 0.125*xi**2 - 0.125*xi + 0.125";
  "-0.25*xi**3 + 0.75*xi + 0.5";
  "0.125*xi**3 + 0.125*xi**2 - 0.125*xi - 0.125";
  "xi**4/8 - xi**2/4 + 1/8";
  "xi**5/8 - xi**3/4 + xi/8";
  "7*xi**6/48 - 5*xi**4/16 + 3*xi**2/16 - 1/48";
  "3*xi**7/16 - 7*xi**5/16 + 5*xi**3/16 - xi/16";
  "33*xi**8/128 - 21*xi**6/32 + 35*xi**4/64 - 5*xi**2/32 + 1/128";
  "143*xi**9/384 - 33*xi**7/32 + 63*xi**5/64 - 35*xi**3/96 + 5*xi/128";
  "143*xi**10/256 - 429*xi**8/256 + 231*xi**6/128 - 105*xi**4/128 + 35*xi**2/256 - 1/256";
  "221*xi**11/256 - 715*xi**9/256 + 429*xi**7/128 - 231*xi**5/128 + 105*xi**3/256 - 7*xi/256";
  "4199*xi**12/3072 - 2431*xi**10/512 + 6435*xi**8/1024 - 1001*xi**6/256 + 1155*xi**4/1024 - 63*xi**2/512 + 7/3072";
  "2261*xi**13/1024 - 4199*xi**11/512 + 12155*xi**9/1024 - 2145*xi**7/256 + 3003*xi**5/1024 - 231*xi**3/512 + 21*xi/1024";
  "7429*xi**14/2048 - 29393*xi**12/2048 + 46189*xi**10/2048 - 36465*xi**8/2048 + 15015*xi**6/2048 - 3003*xi**4/2048 + 231*xi**2/2048 - 3/2048";
  "37145*xi**15/6144 - 52003*xi**13/2048 + 88179*xi**11/2048 - 230945*xi**9/6144 + 36465*xi**7/2048 - 9009*xi**5/2048 + 1001*xi**3/2048 - 33*xi/2048";
  "334305*xi**16/32768 - 185725*xi**14/4096 + 676039*xi**12/8192 - 323323*xi**10/4096 + 692835*xi**8/16384 - 51051*xi**6/4096 + 15015*xi**4/8192 - 429*xi**2/4096 + 33/32768";
  "570285*xi**17/32768 - 334305*xi**15/4096 + 1300075*xi**13/8192 - 676039*xi**11/4096 + 1616615*xi**9/16384 - 138567*xi**7/4096 + 51051*xi**5/8192 - 2145*xi**3/4096 + 429*xi/32768";
  "1964315*xi**18/65536 - 9694845*xi**16/65536 + 5014575*xi**14/16384 - 16900975*xi**12/49152 + 7436429*xi**10/32768 - 2909907*xi**8/32768 + 323323*xi**6/16384 - 36465*xi**4/16384 + 6435*xi**2/65536 - 143/196608";
  "3411705*xi**19/65536 - 17678835*xi**17/65536 + 9694845*xi**15/16384 - 11700675*xi**13/16384 + 16900975*xi**11/32768 - 7436429*xi**9/32768 + 969969*xi**7/16384 - 138567*xi**5/16384 + 36465*xi**3/65536 - 715*xi/65536";
  "23881935*xi**20/262144 - 64822395*xi**18/131072 + 300540195*xi**16/262144 - 48474225*xi**14/32768 + 152108775*xi**12/131072 - 37182145*xi**10/65536 + 22309287*xi**8/131072 - 969969*xi**6/32768 + 692835*xi**4/262144 - 12155*xi**2/131072 + 143/262144";
  "42077695*xi**21/262144 - 119409675*xi**19/131072 + 583401555*xi**17/262144 - 100180065*xi**15/32768 + 339319575*xi**13/131072 - 91265265*xi**11/65536 + 185910725*xi**9/393216 - 3187041*xi**7/32768 + 2909907*xi**5/262144 - 230945*xi**3/393216 + 2431*xi/262144";
  "149184555*xi**22/524288 - 883631595*xi**20/524288 + 2268783825*xi**18/524288 - 3305942145*xi**16/524288 + 1502700975*xi**14/262144 - 882230895*xi**12/262144 + 334639305*xi**10/262144 - 79676025*xi**8/262144 + 22309287*xi**6/524288 - 1616615*xi**4/524288 + 46189*xi**2/524288 - 221/524288";
  "265937685*xi**23/524288 - 1641030105*xi**21/524288 + 4418157975*xi**19/524288 - 6806351475*xi**17/524288 + 3305942145*xi**15/262144 - 2103781365*xi**13/262144 + 882230895*xi**11/262144 - 239028075*xi**9/262144 + 79676025*xi**7/524288 - 7436429*xi**5/524288 + 323323*xi**3/524288 - 4199*xi/524288";
  "3811773485*xi**24/4194304 - 6116566755*xi**22/1048576 + 34461632205*xi**20/2097152 - 27981667175*xi**18/1048576 + 115707975075*xi**16/4194304 - 9917826435*xi**14/524288 + 9116385915*xi**12/1048576 - 1386362835*xi**10/524288 + 2151252675*xi**8/4194304 - 185910725*xi**6/3145728 + 7436429*xi**4/2097152 - 88179*xi**2/1048576 + 4199/12582912";
  "6861192273*xi**25/4194304 - 11435320455*xi**23/1048576 + 67282234305*xi**21/2097152 - 57436053675*xi**19/1048576 + 251835004575*xi**17/4194304 - 23141595015*xi**15/524288 + 23141595015*xi**13/1048576 - 3907022535*xi**11/524288 + 6931814175*xi**9/4194304 - 239028075*xi**7/1048576 + 37182145*xi**5/2097152 - 676039*xi**3/1048576 + 29393*xi/4194304";
  "24805848987*xi**26/8388608 - 171529806825*xi**24/8388608 + 263012370465*xi**22/4194304 - 470975640135*xi**20/4194304 + 1091285019825*xi**18/8388608 - 856239015555*xi**16/8388608 + 115707975075*xi**14/2097152 - 42977247885*xi**12/2097152 + 42977247885*xi**10/8388608 - 6931814175*xi**8/8388608 + 334639305*xi**6/4194304 - 16900975*xi**4/4194304 + 676039*xi**2/8388608 - 2261/8388608";
  "135054066707*xi**27/25165824 - 322476036831*xi**25/8388608 + 514589420475*xi**23/4194304 - 964378691705*xi**21/4194304 + 2354878200675*xi**19/8388608 - 1964313035685*xi**17/8388608 + 285413005185*xi**15/2097152 - 115707975075*xi**13/2097152 + 128931743655*xi**11/8388608 - 23876248825*xi**9/8388608 + 1386362835*xi**7/4194304 - 91265265*xi**5/4194304 + 16900975*xi**3/25165824 - 52003*xi/8388608";
  "327988447717*xi**28/33554432 - 1215486600363*xi**26/16777216 + 8061900920775*xi**24/33554432 - 3945185556975*xi**22/8388608 + 20251952525805*xi**20/33554432 - 8948537162565*xi**18/16777216 + 11131107202215*xi**16/33554432 - 611599296825*xi**14/4194304 + 1504203675975*xi**12/33554432 - 157583242245*xi**10/16777216 + 42977247885*xi**8/33554432 - 882230895*xi**6/8388608 + 152108775*xi**4/33554432 - 1300075*xi**2/16777216 + 7429/33554432";
  "599427163069*xi**29/33554432 - 2295919134019*xi**27/16777216 + 15801325804719*xi**25/33554432 - 8061900920775*xi**23/8388608 + 43397041126725*xi**21/33554432 - 20251952525805*xi**19/16777216 + 26845611487695*xi**17/33554432 - 1590158171745*xi**15/4194304 + 4281195077775*xi**13/33554432 - 501401225325*xi**11/16777216 + 157583242245*xi**9/33554432 - 3907022535*xi**7/8388608 + 882230895*xi**5/33554432 - 11700675*xi**3/16777216 + 185725*xi/33554432";
  "6593698793759*xi**30/201326592 - 17383387729001*xi**28/67108864 + 61989816618513*xi**26/67108864 - 131677715039325*xi**24/67108864 + 185423721177825*xi**22/67108864 - 182267572732245*xi**20/67108864 + 128262365996765*xi**18/67108864 - 65196485041545*xi**16/67108864 + 23852372576175*xi**14/67108864 - 6183948445675*xi**12/67108864 + 1103082695715*xi**10/67108864 - 128931743655*xi**8/67108864 + 9116385915*xi**6/67108864 - 339319575*xi**4/67108864 + 5014575*xi**2/67108864 - 37145/201326592";
  "4041299260691*xi**31/67108864 - 32968493968795*xi**29/67108864 + 121683714103007*xi**27/67108864 - 268622538680223*xi**25/67108864 + 395033145117975*xi**23/67108864 - 407932186591215*xi**21/67108864 + 303779287887075*xi**19/67108864 - 164908756281555*xi**17/67108864 + 65196485041545*xi**15/67108864 - 18551845337025*xi**13/67108864 + 3710369067405*xi**11/67108864 - 501401225325*xi**9/67108864 + 42977247885*xi**7/67108864 - 2103781365*xi**5/67108864 + 48474225*xi**3/67108864 - 334305*xi/67108864";
  "238436656380769*xi**32/2147483648 - 125280277081421*xi**30/134217728 + 956086325095055*xi**28/268435456 - 1095153426927063*xi**26/134217728 + 6715563467005575*xi**24/536870912 - 1817152467542685*xi**22/134217728 + 2855525306138505*xi**20/268435456 - 824543781407775*xi**18/134217728 + 2803448856786435*xi**16/1073741824 - 108660808402575*xi**14/134217728 + 48234797876265*xi**12/268435456 - 3710369067405*xi**10/134217728 + 1504203675975*xi**8/536870912 - 23141595015*xi**6/134217728 + 1502700975*xi**4/268435456 - 9694845*xi**2/134217728 + 334305/2147483648";
  "1322239639929719*xi**33/6442450944 - 238436656380769*xi**31/134217728 + 1879204156221315*xi**29/268435456 - 6692604275665385*xi**27/402653184 + 14236994550051819*xi**25/536870912 - 4029338080203345*xi**23/134217728 + 6662892380989845*xi**21/268435456 - 2039660932956075*xi**19/134217728 + 7420894032669975*xi**17/1073741824 - 311494317420715*xi**15/134217728 + 152125131763605*xi**13/268435456 - 13154944875345*xi**11/134217728 + 6183948445675*xi**9/536870912 - 115707975075*xi**7/134217728 + 9917826435*xi**5/268435456 - 100180065*xi**3/134217728 + 9694845*xi/2147483648";
  "1633354849324947*xi**34/4294967296 - 14544636039226909*xi**32/4294967296 + 7391536347803839*xi**30/536870912 - 18165640176806045*xi**28/536870912 + 60233438480988465*xi**26/1073741824 - 71184972750259095*xi**24/1073741824 + 30891591948225645*xi**22/536870912 - 19988677142969535*xi**20/536870912 + 38753557726165425*xi**18/2147483648 - 14017244283932175*xi**16/2147483648 + 934482952262145*xi**14/536870912 - 179784246629715*xi**12/536870912 + 48234797876265*xi**10/1073741824 - 4281195077775*xi**8/1073741824 + 115707975075*xi**6/536870912 - 3305942145*xi**4/536870912 + 300540195*xi**2/4294967296 - 570285/4294967296";
  "3033373291603473*xi**35/4294967296 - 27767032438524099*xi**33/4294967296 + 14544636039226909*xi**31/536870912 - 36957681739019195*xi**29/536870912 + 127159481237642315*xi**27/1073741824 - 156606940050570009*xi**25/1073741824 + 71184972750259095*xi**23/536870912 - 48543930204354585*xi**21/536870912 + 99943385714847675*xi**19/2147483648 - 38753557726165425*xi**17/2147483648 + 2803448856786435*xi**15/536870912 - 594670969621365*xi**13/536870912 + 179784246629715*xi**11/1073741824 - 18551845337025*xi**9/1073741824 + 611599296825*xi**7/536870912 - 23141595015*xi**5/536870912 + 3305942145*xi**3/4294967296 - 17678835*xi/4294967296";
  "67745336845810897*xi**36/51539607552 - 106168065206121555*xi**34/8589934592 + 916312070471295267*xi**32/17179869184 - 450883717216034179*xi**30/3221225472 + 1071772770431556655*xi**28/4294967296 - 686661198683268501*xi**26/2147483648 + 1305057833754750075*xi**24/4294967296 - 233893481893708455*xi**22/1073741824 + 1019422534291446285*xi**20/8589934592 - 210991592064678425*xi**18/4294967296 + 131762096268962445*xi**16/8589934592 - 3822884804708775*xi**14/1073741824 + 2576907535025915*xi**12/4294967296 - 152125131763605*xi**10/2147483648 + 23852372576175*xi**8/4294967296 - 285413005185*xi**6/1073741824 + 115707975075*xi**4/17179869184 - 583401555*xi**2/8589934592 + 1964315/17179869184";
  "42111966147395963*xi**37/17179869184 - 203236010537432691*xi**35/8589934592 + 1804857108504066435*xi**33/17179869184 - 305437356823765089*xi**31/1073741824 + 2254418586080170895*xi**29/4294967296 - 1500481878604179317*xi**27/2147483648 + 2975531860960830171*xi**25/4294967296 - 559310500180607175*xi**23/1073741824 + 2572828300830793005*xi**21/8589934592 - 566345852384136825*xi**19/4294967296 + 379784865716421165*xi**17/8589934592 - 11978372388087495*xi**15/1073741824 + 8920064544320475*xi**13/4294967296 - 594670969621365*xi**11/2147483648 + 108660808402575*xi**9/4294967296 - 1590158171745*xi**7/1073741824 + 856239015555*xi**5/17179869184 - 6806351475*xi**3/8589934592 + 64822395*xi/17179869184";
  "157365768235005967*xi**38/34359738368 - 1558142747453650631*xi**36/34359738368 + 7113260368810144185*xi**34/34359738368 - 19853428193544730785*xi**32/34359738368 + 9468558061536717759*xi**30/8589934592 - 13075627799264991191*xi**28/8589934592 + 13504336907437613853*xi**26/8589934592 - 10626899503431536325*xi**24/8589934592 + 12864141504153965025*xi**22/17179869184 - 6003266035271850345*xi**20/17179869184 + 2152114239059719935*xi**18/17179869184 - 586940247016287255*xi**16/17179869184 + 59891861940437475*xi**14/8589934592 - 8920064544320475*xi**12/8589934592 + 934482952262145*xi**10/8589934592 - 65196485041545*xi**8/8589934592 + 11131107202215*xi**6/34359738368 - 251835004575*xi**4/34359738368 + 2268783825*xi**2/34359738368 - 3411705/34359738368";
  "883669313935033507*xi**39/103079215104 - 2989949596465113373*xi**37/34359738368 + 14023284727082855679*xi**35/34359738368 - 40308475423257483715*xi**33/34359738368 + 19853428193544730785*xi**31/8589934592 - 28405674184610153277*xi**29/8589934592 + 91529394594854938337*xi**27/25769803776 - 25079482828098425727*xi**25/8589934592 + 31880698510294608975*xi**23/17179869184 - 15722839616188179475*xi**21/17179869184 + 6003266035271850345*xi**19/17179869184 - 1760820741048861765*xi**17/17179869184 + 195646749005429085*xi**15/8589934592 - 32249464121774025*xi**13/8589934592 + 3822884804708775*xi**11/8589934592 - 311494317420715*xi**9/8589934592 + 65196485041545*xi**7/34359738368 - 1964313035685*xi**5/34359738368 + 27981667175*xi**3/34359738368 - 119409675*xi/34359738368";
  "4418346569675167535*xi**40/274877906944 - 11487701081155435591*xi**38/68719476736 + 110628135069209194801*xi**36/137438953472 - 163604988482633316255*xi**34/68719476736 + 1330179688967496962595*xi**32/274877906944 - 123091254799977330867*xi**30/17179869184 + 274588183784564815011*xi**28/34359738368 - 117680650193384920719*xi**26/17179869184 + 626987070702460643175*xi**24/137438953472 - 81472896192975111825*xi**22/34359738368 + 66035926387990353795*xi**20/68719476736 - 10369277697287741505*xi**18/34359738368 + 9977984199276883335*xi**16/137438953472 - 225746248852418175*xi**14/17179869184 + 59891861940437475*xi**12/34359738368 - 2803448856786435*xi**10/17179869184 + 2803448856786435*xi**8/274877906944 - 26845611487695*xi**6/68719476736 + 1091285019825*xi**4/137438953472 - 4418157975*xi**2/68719476736 + 23881935/274877906944";
  "8297870386950924395*xi**41/274877906944 - 22091732848375837675*xi**39/68719476736 + 218266320541953276229*xi**37/137438953472 - 331884405207627584403*xi**35/68719476736 + 2781284804204766376335*xi**33/274877906944 - 266035937793499392519*xi**31/17179869184 + 615456273999886654335*xi**29/34359738368 - 274588183784564815011*xi**27/17179869184 + 1529848452514003969347*xi**25/137438953472 - 208995690234153547725*xi**23/34359738368 + 179240371624545246015*xi**21/68719476736 - 30016330176359251725*xi**19/34359738368 + 31107833091863224515*xi**17/137438953472 - 767537246098221795*xi**15/17179869184 + 225746248852418175*xi**13/34359738368 - 11978372388087495*xi**11/17179869184 + 14017244283932175*xi**9/274877906944 - 164908756281555*xi**7/68719476736 + 8948537162565*xi**5/137438953472 - 57436053675*xi**3/68719476736 + 883631595*xi/274877906944";
  "93647394367017575315*xi**42/1649267441664 - 340212685864987900195*xi**40/549755813888 + 861577581086657669325*xi**38/274877906944 - 8075853860052271220473*xi**36/824633720832 + 11615954182266965454105*xi**34/549755813888 - 18356479707751458083811*xi**32/549755813888 + 2749038023866160389363*xi**30/68719476736 - 2549747420856673282245*xi**28/68719476736 + 7413880962183250005297*xi**26/274877906944 - 4249579034761122137075*xi**24/274877906944 + 961380175077106319535*xi**22/137438953472 - 342186164010495469665*xi**20/137438953472 + 190103424450275260925*xi**18/274877906944 - 40679474043205755135*xi**16/274877906944 + 1644722670210475275*xi**14/68719476736 - 195646749005429085*xi**12/68719476736 + 131762096268962445*xi**10/549755813888 - 7420894032669975*xi**8/549755813888 + 128262365996765*xi**6/274877906944 - 2354878200675*xi**4/274877906944 + 34461632205*xi**2/549755813888 - 42077695/549755813888";
  "58801852276964524035*xi**43/549755813888 - 655531760569123027205*xi**41/549755813888 + 1701063429324939500975*xi**39/274877906944 - 5456658013548831905725*xi**37/274877906944 + 24227561580156813661419*xi**35/549755813888 - 39494244219707682543957*xi**33/549755813888 + 6118826569250486027937*xi**31/68719476736 - 5890795765427486548635*xi**29/68719476736 + 17848231945996712975715*xi**27/274877906944 - 10708939167598027785429*xi**25/274877906944 + 2549747420856673282245*xi**23/137438953472 - 961380175077106319535*xi**21/137438953472 + 570310273350825782775*xi**19/274877906944 - 131610063080959796025*xi**17/274877906944 + 5811353434743679305*xi**15/68719476736 - 767537246098221795*xi**13/68719476736 + 586940247016287255*xi**11/549755813888 - 38753557726165425*xi**9/549755813888 + 824543781407775*xi**7/274877906944 - 20251952525805*xi**5/274877906944 + 470975640135*xi**3/549755813888 - 1641030105*xi/549755813888";
  "443686703544368681355*xi**44/2199023255552 - 2528479647909474533505*xi**42/1099511627776 + 26876802183334044115405*xi**40/2199023255552 - 22113824581224213512675*xi**38/549755813888 + 201896346501306780511825*xi**36/2199023255552 - 169592931061097695629933*xi**34/1099511627776 + 434436686416784507983527*xi**32/2199023255552 - 27097660520966438123721*xi**30/137438953472 + 170833077197397109910415*xi**28/1099511627776 - 53544695837990138927145*xi**26/549755813888 + 53544695837990138927145*xi**24/1099511627776 - 5331290061791225953785*xi**22/274877906944 + 6729661225539744236745*xi**20/1099511627776 - 833530399512745374825*xi**18/549755813888 + 319624438910902361775*xi**16/1099511627776 - 5811353434743679305*xi**14/137438953472 + 9977984199276883335*xi**12/2199023255552 - 379784865716421165*xi**10/1099511627776 + 38753557726165425*xi**8/2199023255552 - 303779287887075*xi**6/549755813888 + 20251952525805*xi**4/2199023255552 - 67282234305*xi**2/1099511627776 + 149184555/2199023255552";
  "838074884472696398115*xi**45/2199023255552 - 4880553738988055494905*xi**43/1099511627776 + 53098072606098965203605*xi**41/2199023255552 - 134384010916670220577025*xi**39/1649267441664 + 420162667043260056740825*xi**37/2199023255552 - 363413423702352204921285*xi**35/1099511627776 + 961026609346220275236287*xi**33/2199023255552 - 62062383773826358283361*xi**31/137438953472 + 406464907814496571855815*xi**29/1099511627776 - 398610513460593256457635*xi**27/1649267441664 + 139216209178774361210577*xi**25/1099511627776 - 14603098864906401525585*xi**23/274877906944 + 19548063559901161830545*xi**21/1099511627776 - 2588331240592209321825*xi**19/549755813888 + 1071681942230672624775*xi**17/1099511627776 - 21308295927393490785*xi**15/137438953472 + 40679474043205755135*xi**13/2199023255552 - 1760820741048861765*xi**11/1099511627776 + 210991592064678425*xi**9/2199023255552 - 2039660932956075*xi**7/549755813888 + 182267572732245*xi**5/2199023255552 - 964378691705*xi**3/1099511627776 + 6116566755*xi/2199023255552";
  "3170109345614112462435*xi**46/4398046511104 - 37713369801271337915175*xi**44/4398046511104 + 209863810776486386280915*xi**42/4398046511104 - 725673658950019191115935*xi**40/4398046511104 + 1746992141916712867501325*xi**38/4398046511104 - 3109203736120124419882105*xi**36/4398046511104 + 4239823276527442390748325*xi**34/4398046511104 - 4530554015489324154685353*xi**32/4398046511104 + 1923933896988617106784191*xi**30/2199023255552 - 1309720258513377842646515*xi**28/2199023255552 + 717498924229067861623743*xi**26/2199023255552 - 316400475406305366387675*xi**24/2199023255552 + 111957091297615745029485*xi**22/2199023255552 - 31577641135224953726265*xi**20/2199023255552 + 7025470510178853873525*xi**18/2199023255552 - 1214572867861428974745*xi**16/2199023255552 + 319624438910902361775*xi**14/4398046511104 - 31107833091863224515*xi**12/4398046511104 + 2152114239059719935*xi**10/4398046511104 - 99943385714847675*xi**8/4398046511104 + 2855525306138505*xi**6/4398046511104 - 43397041126725*xi**4/4398046511104 + 263012370465*xi**2/4398046511104 - 265937685/4398046511104";
  "6002973016162893811845*xi**47/4398046511104 - 72912514949124586636005*xi**45/4398046511104 + 414847067813984717066925*xi**43/4398046511104 - 1469046675435404703966405*xi**41/4398046511104 + 3628368294750095955579675*xi**39/4398046511104 - 6638570139283508896505035*xi**37/4398046511104 + 9327611208360373259646315*xi**35/4398046511104 - 10296713671566645806103075*xi**33/4398046511104 + 4530554015489324154685353*xi**31/2199023255552 - 3206556494981028511306985*xi**29/2199023255552 + 1833608361918728979705121*xi**27/2199023255552 - 847953274088898381918969*xi**25/2199023255552 + 316400475406305366387675*xi**23/2199023255552 - 94732923405674861178795*xi**21/2199023255552 + 22555457953732109804475*xi**19/2199023255552 - 4215282306107312324115*xi**17/2199023255552 + 1214572867861428974745*xi**15/4398046511104 - 131610063080959796025*xi**13/4398046511104 + 10369277697287741505*xi**11/4398046511104 - 566345852384136825*xi**9/4398046511104 + 19988677142969535*xi**7/4398046511104 - 407932186591215*xi**5/4398046511104 + 3945185556975*xi**3/4398046511104 - 11435320455*xi/4398046511104";
  "182090181490274445625965*xi**48/70368744177664 - 282139731759656009156715*xi**46/8796093022208 + 3281063172710606398620225*xi**44/17592186044416 - 5946141305333780944625925*xi**42/8796093022208 + 60230913692851592862622605*xi**40/35184372088832 - 28301272699050748453521465*xi**38/8796093022208 + 245627095153489829170686295*xi**36/52776558133248 - 46638056041801866298231575*xi**34/8796093022208 + 339791551161699311601401475*xi**32/70368744177664 - 46815724826723016265081981*xi**30/13194139533312 + 18598027670889965365580513*xi**28/8796093022208 - 4500675070164152950185297*xi**26/4398046511104 + 7066277284074153182658075*xi**24/17592186044416 - 559785456488078725147425*xi**22/4398046511104 + 284198770217024583536385*xi**20/8796093022208 - 28570246741394005752335*xi**18/4398046511104 + 71659799203824309509955*xi**16/70368744177664 - 1071681942230672624775*xi**14/8796093022208 + 190103424450275260925*xi**12/17592186044416 - 6003266035271850345*xi**10/8796093022208 + 1019422534291446285*xi**8/35184372088832 - 6662892380989845*xi**6/8796093022208 + 185423721177825*xi**4/17592186044416 - 514589420475*xi**2/8796093022208 + 3811773485/70368744177664";
  "345599732216235172310505*xi**49/70368744177664 - 546270544470823336877895*xi**47/8796093022208 + 6489213830472088210604445*xi**45/17592186044416 - 12030564966605556794940825*xi**43/8796093022208 + 124868967412009399837144425*xi**41/35184372088832 - 60230913692851592862622605*xi**39/8796093022208 + 179241393760654740205635945*xi**37/17592186044416 - 105268755065781355358865555*xi**35/8796093022208 + 792846952710631727069936775*xi**33/70368744177664 - 37754616795744367955711275*xi**31/4398046511104 + 46815724826723016265081981*xi**29/8796093022208 - 11835108517839068869005781*xi**27/4398046511104 + 19502925304044662784136287*xi**25/17592186044416 - 1630679373247881503690325*xi**23/4398046511104 + 879662860195552282374525*xi**21/8796093022208 - 94732923405674861178795*xi**19/4398046511104 + 257132220672546051771015*xi**17/70368744177664 - 4215282306107312324115*xi**15/8796093022208 + 833530399512745374825*xi**13/17592186044416 - 30016330176359251725*xi**11/8796093022208 + 6003266035271850345*xi**9/35184372088832 - 48543930204354585*xi**7/8796093022208 + 1817152467542685*xi**5/17592186044416 - 8061900920775*xi**3/8796093022208 + 171529806825*xi/70368744177664"
].

(** _S.py:60-2561 : S. Every stored text is "(F)*(G)" where F is the text of FXI[i] and G that of FXI[j] with xi
    written eta, or "(G)*(F)". Only the order of the factors is kept (checked by the generator): character j of line i
    is 1 when the factor in xi comes first. *)
Definition xi_first : list string := [
  "01010011111111111111111111111111111111111111111111";
  "00000000111111111111111111111111111111111111111111";
  "01010011111111111111111111111111111111111111111111";
  "00000000111111111111111111111111111111111111111111";
  "01010011111111111111111111111111111111111111111111";
  "01010011111111111111111111111111111111111111111111";
  "00000000111111111111111111111111111111111111111111";
  "00000000111111111111111111111111111111111111111111";
  "00000000001111111111111111111111111111111111111111";
  "00000000001111111111111111111111111111111111111111";
  "00000000000011111111111111111111111111111111111111";
  "00000000000011111111111111111111111111111111111111";
  "00000000000000111111111111111111111111111111111111";
  "00000000000000111111111111111111111111111111111111";
  "00000000000000001111111111111111111111111111111111";
  "00000000000000001111111111111111111111111111111111";
  "00000000000000000011111111111111111111111111111111";
  "00000000000000000011111111111111111111111111111111";
  "00000000000000000000111111111111111111111111111111";
  "00000000000000000000111111111111111111111111111111";
  "00000000000000000000001111111111111111111111111111";
  "00000000000000000000001111111111111111111111111111";
  "00000000000000000000000011111111111111111111111111";
  "00000000000000000000000011111111111111111111111111";
  "00000000000000000000000000111111111111111111111111";
  "00000000000000000000000000111111111111111111111111";
  "00000000000000000000000000001111111111111111111111";
  "00000000000000000000000000001111111111111111111111";
  "00000000000000000000000000000011111111111111111111";
  "00000000000000000000000000000011111111111111111111";
  "00000000000000000000000000000000111111111111111111";
  "00000000000000000000000000000000111111111111111111";
  "00000000000000000000000000000000001111111111111111";
  "00000000000000000000000000000000001111111111111111";
  "00000000000000000000000000000000000011111111111111";
  "00000000000000000000000000000000000011111111111111";
  "00000000000000000000000000000000000000111111111111";
  "00000000000000000000000000000000000000111111111111";
  "00000000000000000000000000000000000000001111111111";
  "00000000000000000000000000000000000000001111111111";
  "00000000000000000000000000000000000000000011111111";
  "00000000000000000000000000000000000000000011111111";
  "00000000000000000000000000000000000000000000111111";
  "00000000000000000000000000000000000000000000111111";
  "00000000000000000000000000000000000000000000001111";
  "00000000000000000000000000000000000000000000001111";
  "00000000000000000000000000000000000000000000000011";
  "00000000000000000000000000000000000000000000000011";
  "00000000000000000000000000000000000000000000000000";
  "00000000000000000000000000000000000000000000000000"
].
