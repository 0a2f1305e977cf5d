[[46076956964474543, 2, [[78283, 1], [18169, 1]]], [204061199, 2, [[3769, 1], [107, 1]]], [34282281433, 2, [[204061199, 1]]], [774023187263532362759620327192479577272145303, 2, [[46076956964474543, 1], [34282281433, 1]]], [835945042244614951780389953367877943453916927241, 2, [[774023187263532362759620327192479577272145303, 1]]], [115792089210356248762697446949407573530086143415290314195533631308867097853951, 2, [[835945042244614951780389953367877943453916927241, 1]]]]