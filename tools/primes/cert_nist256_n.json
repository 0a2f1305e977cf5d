[[208150935158385979, 2, [[3023, 1], [127, 1], [43, 1], [11, 1], [3, 1]]], [2624747550333869278416773953, 2, [[208150935158385979, 1]]], [3969899, 2, [[104471, 1]]], [1002328039319, 2, [[3969899, 1]]], [115792089210356248762697446949407573529996955224135760342422259061068512044369, 2, [[2624747550333869278416773953, 1], [1002328039319, 1]]]]