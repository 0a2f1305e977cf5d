*.vo
*.vok
*.vos
*.glob
.*.aux
.lia.cache
.nia.cache
Makefile
Makefile.conf
.Makefile.d
*.conf
__pycache__/
