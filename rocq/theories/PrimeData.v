(** Certificates of primality of the orders of the named curves (input of the checker of PrimeCert.v). *)
From Coq Require Import List ZArith Uint63.
From Verif Require Import PrimeCert.
Import ListNotations.
Open Scope Z_scope.

Definition chain_brainpoolP256r1 : list step := [
  mkstep 1319 181331305%uint63 [(659, 1, (2, 827))];
  mkstep 50123 37172765%uint63 [(1319, 1, (2, 21950))];
  mkstep 41802583 28229529%uint63 [(50123, 1, (2, 13695403))];
  mkstep 1674656872585139 157962373%uint63 [(41802583, 1, (2, 392114642589805))];
  mkstep 190455129210693390224369129 189103527%uint63 [(1674656872585139, 1, (2, 56258060839812042094958663))];
  mkstep 114430077720284863765762092766225391679591020381 21555979%uint63 [(190455129210693390224369129, 1, (2, 76366268039699034562742064176164059132321148))];
  mkstep 4271386466502519123378319257166758282929862876911918307708639947947974242171 41822285%uint63 [(114430077720284863765762092766225391679591020381, 1, (2, 2909595677353415879784638811474067506545336033108987116388545444068147201900))];
  mkstep 76884956397045344220809746629001649092737531784414529538755519063063536359079 196349673%uint63 [(4271386466502519123378319257166758282929862876911918307708639947947974242171, 1, (2, 52039998515718773343847118129738504298816679132463968673755337903588697211627))]].

Definition chain_brainpoolP320r1 : list step := [
  mkstep 1223 201491209%uint63 [(47, 1, (2, 496))];
  mkstep 44029 32044715%uint63 [(1223, 1, (2, 27137))];
  mkstep 1872641429 156359235%uint63 [(44029, 1, (2, 1595342871))];
  mkstep 23713516839944203 171324509%uint63 [(1872641429, 1, (2, 3215314976496518))];
  mkstep 174197 91756579%uint63 [(107, 1, (2, 112944)); (37, 1, (2, 122571))];
  mkstep 39251 254340389%uint63 [(157, 1, (2, 20673)); (5, 3, (2, 11687))];
  mkstep 205122193411 200367445%uint63 [(174197, 1, (2, 152993381993)); (39251, 1, (2, 82312128679))];
  mkstep 4161929304309191 216714249%uint63 [(205122193411, 1, (2, 1886571319529894))];
  mkstep 56834084706324953499635029374333218339957513609 162830151%uint63 [(23713516839944203, 1, (2, 45047525774591258374986640025416837228759431033)); (4161929304309191, 1, (2, 9229933004446030338798986946589043656461683044))];
  mkstep 23341373081361435103090946041083073851794115571864009670215941767494551877 16752243%uint63 [(56834084706324953499635029374333218339957513609, 1, (2, 18589366289754351583280835071396276506633596201172457392572363154750059099))];
  mkstep 299589410500344960818634453344053290288849906371853185689121682914766027672438458623 266946817%uint63 [(23341373081361435103090946041083073851794115571864009670215941767494551877, 1, (2, 202709747626124602215105317051044209572800438481378524350472355236688979412122720751))];
  mkstep 1763593322239166354161909842446019520889512772717686063760686124016784784845843468355685258203921 207766031%uint63 [(299589410500344960818634453344053290288849906371853185689121682914766027672438458623, 1, (2, 1047477166529965556981139718906430178988552666563878146930651280555491655911778998285527793042462))]].

Definition chain_brainpoolP384r1 : list step := [
  mkstep 2083 49485941%uint63 [(347, 1, (2, 2043))];
  mkstep 2520431 149649009%uint63 [(2083, 1, (2, 1539825))];
  mkstep 9341 116558635%uint63 [(467, 1, (2, 2235))];
  mkstep 49393939847159 35726905%uint63 [(2520431, 1, (2, 4507404126824)); (9341, 1, (2, 18589418486578))];
  mkstep 43397 127998131%uint63 [(571, 1, (2, 5929))];
  mkstep 11543603 34638085%uint63 [(43397, 1, (2, 5394380))];
  mkstep 1454493979 182771437%uint63 [(11543603, 1, (2, 1237573221))];
  mkstep 2788900573532341797131599550190476443808598899 122121797%uint63 [(49393939847159, 1, (2, 1789011361219114215286995748362656404762461626)); (1454493979, 1, (2, 1006741976532110026599298062568668233394261126))];
  mkstep 669909697361913545660898382546007419518544524592370543 55219313%uint63 [(2788900573532341797131599550190476443808598899, 1, (2, 318726112021478103496288993413282599282820298515722524))];
  mkstep 90050068090664042551646936303486902724615855323314057604193773 213022747%uint63 [(669909697361913545660898382546007419518544524592370543, 1, (2, 5745963424486375085802361029128023013415151015420595333418322))];
  mkstep 21659270770119316173069236842332604979796116387017648600075645274821611501358515537962695117368903252229601718723941 213236627%uint63 [(90050068090664042551646936303486902724615855323314057604193773, 1, (2, 4768926926928958419098571300054492840612128221585231942436802718136464959988584597699326093013832739589324264795040))]].

Definition chain_brainpoolP512r1 : list step := [
  mkstep 1171601 129113999%uint63 [(101, 1, (2, 980178)); (29, 1, (2, 103475))];
  mkstep 140592121 101970359%uint63 [(1171601, 1, (2, 82443013))];
  mkstep 6599675343983 68556145%uint63 [(140592121, 1, (2, 3727328318968))];
  mkstep 2269518422590621710010337 166282207%uint63 [(6599675343983, 1, (2, 2125825424724713568175802))];
  mkstep 40129 179440831%uint63 [(19, 1, (2, 33948)); (11, 1, (2, 2618))];
  mkstep 361396637489 262805039%uint63 [(40129, 1, (2, 251285643577)); (271, 1, (2, 33409179262))];
  mkstep 1288691 37677253%uint63 [(431, 1, (2, 1022685)); (23, 1, (2, 1258998))];
  mkstep 191760954274777244141857 38389023%uint63 [(361396637489, 1, (2, 53153230151300474421706)); (1288691, 1, (2, 67018392732185348876009))];
  mkstep 4982806528470961888578867896009647265488138691022009860168845631273 40571623%uint63 [(2269518422590621710010337, 1, (2, 2828750382334268800317026429292918709374253486152461149028626763895)); (191760954274777244141857, 1, (2, 2000028505491891126110756918813683513694174527961903098583397284410))];
  mkstep 23337925407708917343269873493319607638879341485914224746228038546474382183428298476287118961279 85502593%uint63 [(4982806528470961888578867896009647265488138691022009860168845631273, 1, (2, 4634992242684572105070310285073813489742902044906194618201968790307790638929508637484276130937))];
  mkstep 8948962207650232551656602815159153422162609644098354511344597187200057010413418528378981730643524959857451398370029280583094215613882043973354392115544169 253456423%uint63 [(23337925407708917343269873493319607638879341485914224746228038546474382183428298476287118961279, 1, (2, 3401159071736065737773069893362599586798401222869418936066261324844059814664202154396281175963936696069658714440529658966868234773794884359530500695697873))]].

Definition chain_secp256k1 : list step := [
  mkstep 1871 163270737%uint63 [(17, 1, (2, 39)); (11, 1, (2, 757))];
  mkstep 1627771 133457741%uint63 [(1871, 1, (2, 1154089))];
  mkstep 297159362677 178026531%uint63 [(1627771, 1, (2, 130201955662))];
  mkstep 1409 104973695%uint63 [(11, 1, (2, 932)); (2, 7, (3, 1076))];
  mkstep 28181 63639235%uint63 [(1409, 1, (2, 5652))];
  mkstep 545358713 236554551%uint63 [(28181, 1, (2, 396826011))];
  mkstep 29047611873442575647497758179 62863413%uint63 [(297159362677, 1, (2, 18801087723133232021024326893)); (545358713, 1, (2, 29013613030158745377415214446))];
  mkstep 341948486974166000522343609283189 255685155%uint63 [(29047611873442575647497758179, 1, (2, 224605591131353848552888016535061))];
  mkstep 9349 108907443%uint63 [(41, 1, (2, 1134)); (19, 1, (2, 727))];
  mkstep 44706919 212062377%uint63 [(9349, 1, (2, 677917))];
  mkstep 120233 127820135%uint63 [(113, 1, (2, 52611)); (19, 1, (2, 28831))];
  mkstep 174723607534414371449 2707511%uint63 [(44706919, 1, (2, 86164945196090806506)); (120233, 1, (2, 30191432717064584268))];
  mkstep 115792089237316195423570985008687907852837564279074904382605163141518161494337 92844351%uint63 [(341948486974166000522343609283189, 1, (2, 86443482475493594637058033970724069194979125586118528734651605683597094025084)); (174723607534414371449, 1, (2, 59974244985029553464916141273869689650178034563326953014766642215295262570544))]].

Definition chain_secp256r1 : list step := [
  mkstep 155317 112975971%uint63 [(43, 2, (2, 88811))];
  mkstep 191039911 264958441%uint63 [(155317, 1, (2, 58994068))];
  mkstep 1511 193643049%uint63 [(151, 1, (2, 897))];
  mkstep 3023 99542225%uint63 [(1511, 1, (2, 2714))];
  mkstep 208150935158385979 4955149%uint63 [(191039911, 1, (2, 148235076181160490)); (3023, 1, (2, 187938425799348361))];
  mkstep 2624747550333869278416773953 23335743%uint63 [(208150935158385979, 1, (2, 1484302032407244459039348530))];
  mkstep 104471 89317465%uint63 [(337, 1, (2, 34930))];
  mkstep 3969899 248118973%uint63 [(104471, 1, (2, 647499))];
  mkstep 1002328039319 178499545%uint63 [(3969899, 1, (2, 830006762633))];
  mkstep 115792089210356248762697446949407573529996955224135760342422259061068512044369 234929231%uint63 [(2624747550333869278416773953, 1, (2, 11471898572934715988041682301211719756264011563636896573720935817891228828228)); (1002328039319, 1, (2, 20273205804196386495356635509182453299669771649738853114399280465512210680892))]].

Definition chain_secp384r1 : list step := [
  mkstep 272109983 227095969%uint63 [(421, 1, (2, 108446663)); (233, 1, (2, 18275160))];
  mkstep 228572385721 71900023%uint63 [(272109983, 1, (2, 214461237541))];
  mkstep 23314383343543 175669753%uint63 [(228572385721, 1, (2, 18538135349159))];
  mkstep 426632512014427833817 129439127%uint63 [(23314383343543, 1, (2, 256418120762980871876))];
  mkstep 1495199339761412565498084319 11845601%uint63 [(426632512014427833817, 1, (2, 448026678670122154542504979))];
  mkstep 17942392077136950785977011829 113896995%uint63 [(1495199339761412565498084319, 1, (2, 1152949924540760856914096017))];
  mkstep 9863677 211131563%uint63 [(881, 1, (2, 5685083)); (311, 1, (2, 8392776))];
  mkstep 37344768852931 194378517%uint63 [(9863677, 1, (2, 8763328070116))];
  mkstep 55942463741690639 128087057%uint63 [(37344768852931, 1, (2, 23000085607045053))];
  mkstep 1059392654943455286185473617842338478315215895509773412096307 126268933%uint63 [(17942392077136950785977011829, 1, (2, 161280110363308166993110585235928619219272739156816626353620)); (55942463741690639, 1, (2, 647477339730970146099428295815901916520264795676557959885895))];
  mkstep 3055465788140352002733946906144561090641249606160407884365391979704929268480326390471 201666825%uint63 [(1059392654943455286185473617842338478315215895509773412096307, 1, (2, 7581951701303262494419712179583524654961370942700239891572632275856078918553973021))];
  mkstep 39402006196394479212279040100143613805079739270465446667946905279627659399113263569398956308152294913554433653942643 143645765%uint63 [(3055465788140352002733946906144561090641249606160407884365391979704929268480326390471, 1, (2, 28896966476396889752259440482070475520158724250067001253807197268139052200171160465274697195354527801487243974694113))]].

Definition chain_secp521r1 : list step := [
  mkstep 3615194794881930010216942559103847593050265703173292383701371712350878926821661243755933835426896058418509759880171943 227637737%uint63 [(3636410625392624440351547907325502812950802686368714273274221490761556277859337865760708490235892541081304511, 1, (2, 3449574383315135934674560187687061429086309909566156815672198391600780451551661582303811859005787618649788134200268227))];
  mkstep 6864797660130609714981900799081393217269435300143305409394463459185543183397655394245057746333217197532963996371363321113864768612440380340372808892707005449 162108871%uint63 [(3615194794881930010216942559103847593050265703173292383701371712350878926821661243755933835426896058418509759880171943, 1, (2, 2020695801641501987938309827272040394895628110438454801035843446719687800762473113378350381700062942000691603437214782455761420791834139957025244468124095585))]].

(** for the step through an elliptic curve in the chain of secp521r1, whose 361-bit prime factor is not in the chain *)
Definition chain_199 : list step := [
  mkstep 116483 251241557%uint63 [(419, 1, (2, 36381))];
  mkstep 2351 1712689%uint63 [(47, 1, (2, 368)); (5, 2, (3, 817))];
  mkstep 1321882992900199 68836521%uint63 [(116483, 1, (2, 962366299533645)); (2351, 1, (2, 518128478048269))];
  mkstep 136601 82284887%uint63 [(683, 1, (2, 18396))];
  mkstep 819607 179433945%uint63 [(136601, 1, (2, 353124))];
  mkstep 54094063 81345009%uint63 [(819607, 1, (2, 4042475))];
  mkstep 1839198143 212074433%uint63 [(54094063, 1, (2, 1031107983))];
  mkstep 213346984589 42405819%uint63 [(1839198143, 1, (2, 37710690604))];
  mkstep 426693969179 241660653%uint63 [(213346984589, 1, (2, 149071918749))];
  mkstep 19618612570204696198749637002339899 195116301%uint63 [(1321882992900199, 1, (2, 3580481988672764032544268231639663)); (426693969179, 1, (2, 15827172601999054894856052059043175))];
  mkstep 522996831121946918645574135122861461946031791899402247158739 112995237%uint63 [(19618612570204696198749637002339899, 1, (2, 518842359290234827659180559342648729394861376347654690318352))]].
